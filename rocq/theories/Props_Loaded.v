(** Property C60: queries of a model on a deployed SQLite database. *)
From Coq Require Import Permutation Sorting.Sorted.
From Verif Require Import Base SqlVal Adb AdbSpec Conv ConvProofs Sql SqlStmt Query QuerySpec Stmt StmtSpec LiteralSpec Ddl DdlSpec SqliteSem SqliteData
  Backend BackendSpec MigrateSpec DataCalls StoredSpec Conn ConnProofs Many ManyProofs Codegen CodegenSpec CodegenProofs Obj ObjSpec ObjProofs
  Props_Query Props_Models Props_Objects Props_Schema Props_TursoScript Props_Migrations Props_Migrate Props_Stored Saved SavedSpec SavedProofs
  Props_Saved HistorySpec HistoryProofs Props_History Loaded LoadedSpec LoadedProofs.

(** * C60 *)

(** The rows of the table are those of the objects [stored]. Then load succeeds and
    returns equals of exactly the objects the query asks for.
    Missing: filters with the groups of C17's findings, which are misread. *)
Theorem C60_load_partial : forall U X json_text resolve sem s g kw dl conv veq read strict E d t D db x (stored : list (Sql.row * @object U (many X))),
  deployed json_text resolve sem s g kw dl conv veq read strict E d t ->
  keeps json_text E conv strict d D db -> table_of resolve sem s g D stored ->
  query_fits E dl (do_table g) D x -> nonneg (q_limit x) -> StmtSpec.fits Sqlite x (q_limit x) D ->
  (exists r, sqlite_load_answers (X := X) json_text kw dl E sem g x db r)
  /\ forall r, sqlite_load_answers (X := X) json_text kw dl E sem g x db r ->
       exists found l, r = Ok l /\ query_finds g E D stored x (q_limit x) found /\ all_equal resolve s found l.
Proof.
  intros U X json_text resolve sem s g kw dl conv veq read strict E d t D db x stored DP KP TO QF NL FT.
  pose proof (fun q => query_answers_are json_text resolve sem s g kw dl conv veq read strict E d t DP D db x q KP QF NL FT) as QA.
  destruct (returns_exist json_text resolve sem s g kw dl conv veq read strict E d t DP D db x (q_limit x) KP QF) as (rs0 & R0). split.
  - eexists. exists (Ok rs0). split; [|reflexivity]. apply QA. left. eauto.
  - intros r (q & Hq & ->). apply QA in Hq as [(rs & -> & R)|[_ N]]; [|now destruct (N rs0)].
    destruct (returns_are resolve sem s g E D stored x (q_limit x) rs TO (qf_table _ _ _ _ _ QF) R) as (chosen & P & S & A).
    destruct (objects_read json_text resolve sem s g kw dl conv veq read strict E d t DP _ rs (chosen_rows resolve sem s g D stored chosen _ _ _ TO P) A) as (l & L1 & L2).
    eexists. exists l. cbn [obind]. split; [exact L1|]. split; [exists chosen; split; [exact P|]; split; [exact S|reflexivity]|exact L2].
Qed.
Print Assumptions C60_load_partial.

(** load_first: the first of the objects the query asks for, if there is one, the limit of
    the query left aside (C21_load_first_ignores_limit_refuted). *)
Theorem C60_load_first_partial : forall U X json_text resolve sem s g kw dl conv veq read strict E d t D db x (stored : list (Sql.row * @object U (many X))),
  deployed json_text resolve sem s g kw dl conv veq read strict E d t ->
  keeps json_text E conv strict d D db -> table_of resolve sem s g D stored -> query_fits E dl (do_table g) D x ->
  (exists r, sqlite_load_first_answers (X := X) json_text kw dl E sem g x db r)
  /\ forall r, sqlite_load_first_answers (X := X) json_text kw dl E sem g x db r ->
       exists found, query_finds g E D stored x None found
         /\ match found with
            | [] => r = Ok None
            | o :: _ => exists o2, r = Ok (Some o2) /\ equal_objects resolve s o o2
            end.
Proof.
  intros U X json_text resolve sem s g kw dl conv veq read strict E d t D db x stored DP KP TO QF.
  assert (QF1 : query_fits E dl (do_table g) D (set_limit 1 x)) by (destruct QF as [Qt Qf Qc Qs Qo]; constructor; assumption).
  assert (NL : nonneg (q_limit (set_limit 1 x))) by (cbn; lia). assert (FT : StmtSpec.fits Sqlite (set_limit 1 x) (q_limit (set_limit 1 x)) D) by (cbn; discriminate).
  pose proof (fun q => query_answers_are json_text resolve sem s g kw dl conv veq read strict E d t DP D db (set_limit 1 x) q KP QF1 NL FT) as QA.
  destruct (returns_exist json_text resolve sem s g kw dl conv veq read strict E d t DP D db (set_limit 1 x) (q_limit (set_limit 1 x)) KP QF1) as (rs0 & R0). split.
  - eexists. exists (Ok rs0). split; [|reflexivity]. apply QA. left. eauto.
  - intros r (q & Hq & ->). apply QA in Hq as [(rs & -> & R)|[_ N]]; [|now destruct (N rs0)].
    destruct (returns_are resolve sem s g E D stored (set_limit 1 x) _ rs TO (qf_table _ _ _ _ _ QF1) R) as (chosen & P & S & A).
    destruct (objects_read json_text resolve sem s g kw dl conv veq read strict E d t DP _ rs (chosen_rows resolve sem s g D stored chosen _ _ _ TO P) A) as (l & L1 & L2).
    exists (map snd (StmtSpec.drop (q_offset x) chosen)). split; [exists chosen; split; [exact P|]; split; [exact S|reflexivity]|].
    cbn [set_limit q_limit q_offset StmtSpec.take] in L2. change (Z.to_nat 1) with 1%nat in L2. cbn [obind].
    destruct (StmtSpec.drop (q_offset x) chosen) as [|[r o] rest].
    + cbn in L2. inversion L2; subst. destruct rs as [|v rs]; [reflexivity|]. cbn [omapm] in L1. destruct (object_of_row sem g v); cbn in L1; try discriminate. destruct (omapm (object_of_row sem g) rs); discriminate.
    + cbn in L2. inversion L2 as [|? o2 ? l' EQ L3]; subst. inversion L3; subst. destruct rs as [|v rs]; [discriminate L1|]. cbn [omapm] in L1.
      destruct (object_of_row sem g v) as [o3|e|]; cbn in L1; try discriminate. destruct (omapm (object_of_row sem g) rs); try discriminate. injection L1 as -> _.
      exists o2. split; [reflexivity|exact EQ].
Qed.
Print Assumptions C60_load_first_partial.

(** delete: exactly the rows that satisfy the filter go; or the engine refuses it, when
    without them a reference would be to a row that is gone, and nothing has changed. *)
Theorem C60_delete_partial : forall U json_text resolve (sem : ty -> codec U) s g kw dl conv veq read strict E fresh d t D db x,
  deployed json_text resolve sem s g kw dl conv veq read strict E d t ->
  keeps json_text E conv strict d D db -> numbers_fit json_text fresh d db -> query_fits E dl (do_table g) D x ->
  exists D', D' (do_table g) = filter (fun r => negb (row_matches E D (do_table g) (q_filter x) r)) (D (do_table g))
    /\ (forall n, n <> do_table g -> D' n = D n)
    /\ ((exists db', sqlite_delete_query kw dl conv veq read E fresh x db = (Ok tt, db') /\ keeps json_text E conv strict d D' db')
        \/ (sqlite_delete_query kw dl conv veq read E fresh x db = (Err (DbError 1), db) /\ ~ references_kept E d (do_table g) D')).
Proof.
  intros U json_text resolve sem s g kw dl conv veq read strict E fresh d t D db x DP KP NF [Qt Qf Qc Qs Qo].
  set (e := match q_filter x with Some e => e | None => BTrue end).
  assert (EM : forall r, row_matches E D (do_table g) (Some e) r = row_matches E D (do_table g) (q_filter x) r) by (intros r; unfold e; destruct (q_filter x); reflexivity).
  assert (CF : call_fits json_text E dl d D (DeleteWhere (q_table x) e)).
  { exists t. cbn [call_table]. rewrite Qt. split; [exact (mi_table _ _ _ _ _ _ _ (dp_model _ _ _ _ _ _ _ _ _ _ _ _ _ _ DP))|]. unfold e. destruct (q_filter x) as [f|].
    - destruct (Qf f eq_refl) as (B1 & B2 & B3). auto.
    - split; [exact Logic.I|]. split; [exact Logic.I|]. split; [intros r _; eexists; reflexivity|constructor]. }
  destruct (C55_call json_text kw dl conv veq read strict E fresh d D db _ (dp_engine _ _ _ _ _ _ _ _ _ _ _ _ _ _ DP) (dp_schema _ _ _ _ _ _ _ _ _ _ _ _ _ _ DP) KP NF CF)
    as (b & D' & _ & A & O). cbn [asks] in A. rewrite Qt in A. exists D'. split; [|split].
  - rewrite A, with_table_same. apply filter_ext. intros r. now rewrite EM.
  - intros n Hn. rewrite A. now apply with_table_other.
  - unfold sqlite_delete_query, sqlite_run. fold e. destruct O as [(db' & -> & K' & _)|[-> N]]; [left; eauto|right].
    split; [reflexivity|]. intros RK. apply N. apply (fewer_legal E d (do_table g) (fun r => negb (row_matches E D (do_table g) (q_filter x) r)) D D'); [exact (kp_legal _ _ _ _ _ _ _ KP)| | |exact RK].
    + rewrite A, with_table_same. apply filter_ext. intros r. now rewrite EM.
    + intros n Hn. rewrite A. now apply with_table_other.
Qed.
Print Assumptions C60_delete_partial.

(** After any history of saves and deletes that began with empty tables and in which no
    save of the model failed halfway, the rows of its table are those of the objects known
    to be there, one for each, and so every query finds exactly those of them that it
    asks for. *)
Theorem C60_history_partial : forall U X json_text resolve sem valid init kw dl conv veq read strict E fresh d models D db db' kn' m,
  all_deployed json_text resolve sem kw dl conv veq read strict E d models -> apart resolve models ->
  keeps json_text E conv strict d D db -> (forall m, In m models -> D (table_name m) = []) ->
  @history U X json_text resolve sem valid init kw dl conv veq read E fresh d models db (fun _ _ => Absent) db' kn' ->
  In m models -> (forall k, kn' (table_name m) k <> Unclear) ->
  exists D' stored, keeps json_text E conv strict d D' db' /\ table_of resolve sem (mo_decl m) (mo_code m) D' stored
    /\ (forall k o, given_fits json_text (mo_tab m) (do_pkcol (mo_code m)) k ->
          (kn' (table_name m) k = Present o <-> In o (map snd stored) /\ CodegenSpec.stores sem o (do_pk (mo_code m)) k))
    /\ (forall i j o o' k, nth_error (map snd stored) i = Some o -> nth_error (map snd stored) j = Some o' ->
          CodegenSpec.stores sem o (do_pk (mo_code m)) k -> CodegenSpec.stores sem o' (do_pk (mo_code m)) k -> i = j)
    /\ forall x, query_fits E dl (table_name m) D' x -> nonneg (q_limit x) -> StmtSpec.fits Sqlite x (q_limit x) D' ->
       (exists r, sqlite_load_answers (X := X) json_text kw dl E sem (mo_code m) x db' r)
       /\ forall r, sqlite_load_answers (X := X) json_text kw dl E sem (mo_code m) x db' r ->
            exists found l, r = Ok l /\ query_finds (mo_code m) E D' stored x (q_limit x) found /\ all_equal resolve (mo_decl m) found l.
Proof.
  intros U X json_text resolve sem valid init kw dl conv veq read strict E fresh d models D db db' kn' m AD AP KP D0 H Hm NU.
  assert (I : inv (X := X) json_text resolve sem kw dl conv strict E d models D db (fun _ _ => Absent)).
  { split; [assumption|]. intros m0 k Hm0 Kk. apply (absent_right json_text resolve sem kw dl conv veq read strict E d models AD); auto.
    intros (y & Hy & _). rewrite (D0 m0 Hm0) in Hy. contradiction. }
  destruct (history_inv json_text resolve sem valid init kw dl conv veq read strict E fresh d models AD AP db _ db' kn' H D I) as (D' & KP' & R). clear H I D0 KP D.
  pose proof (AD m Hm) as DP. pose proof (rows_table json_text resolve sem (mo_decl m) (mo_code m) kw dl conv veq read strict E d (mo_tab m) DP D' db' KP') as T.
  pose proof (dp_exact _ _ _ _ _ _ _ _ _ _ _ _ _ _ DP) as EX.
  assert (HK : forall k r v, given_fits json_text (mo_tab m) (do_pkcol (mo_code m)) k -> In r (D' (table_name m)) -> field (do_pkcol (mo_code m)) r = Some v ->
             (has_key E (do_pkcol (mo_code m)) k r = true <-> v = k)).
  { intros k r v Kk Hr Hv. unfold model_table in T. rewrite Forall_forall in T. destruct (T r Hr) as [_ (v' & Hv' & Kv)]. rewrite Hv in Hv'. injection Hv' as <-.
    unfold has_key. rewrite Hv. specialize (EX v k Kv Kk). destruct (compare3 E CEq v k) as [[|]|]; split; intros F; try discriminate; try reflexivity; try (now apply EX); apply EX in F; discriminate F. }
  (* each row has its object *)
  assert (ROW : forall r, In r (D' (table_name m)) -> exists o k, kn' (table_name m) k = Present o /\ field (do_pkcol (mo_code m)) r = Some k
             /\ given_fits json_text (mo_tab m) (do_pkcol (mo_code m)) k /\ is_row_of resolve sem (mo_decl m) (mo_code m) o r).
  { intros r Hr. unfold model_table in T. rewrite Forall_forall in T. destruct (T r Hr) as [_ (k & Hk & Kk)].
    assert (Hh : has_key E (do_pkcol (mo_code m)) k r = true) by (apply (HK k r k); auto).
    pose proof (R m k Hm Kk) as [_ R1]. destruct (kn' (table_name m) k) as [|o|] eqn:Ek.
    - exfalso. apply R1. exists r. auto.
    - exists o, k. split; [assumption|]. split; [assumption|]. split; [assumption|]. exact (proj2 R1 r Hr Hh).
    - now destruct (NU k). }
  assert (ST : exists stored, map fst stored = D' (table_name m) /\ Forall (fun p => exists k, kn' (table_name m) k = Present (snd p) /\ field (do_pkcol (mo_code m)) (fst p) = Some k
             /\ given_fits json_text (mo_tab m) (do_pkcol (mo_code m)) k /\ is_row_of resolve sem (mo_decl m) (mo_code m) (snd p) (fst p)) stored).
  { generalize ROW. clear. generalize (D' (table_name m)) as l. induction l as [|r l IH]; intros ROW; [exists []; split; [reflexivity|constructor]|].
    destruct IH as (st & S1 & S2); [intros r0 H0; apply ROW; now right|]. destruct (ROW r (or_introl eq_refl)) as (o & k & H1).
    exists ((r, o) :: st). split; [cbn; now rewrite S1|]. constructor; [exists k; exact H1|assumption]. }
  destruct ST as (stored & S1 & S2).
  assert (TO : table_of resolve sem (mo_decl m) (mo_code m) D' stored).
  { split; [exact S1|]. eapply Forall_impl; [|exact S2]. intros p (k & _ & _ & _ & H). exact H. }
  (* the key of an object is that of its row *)
  assert (KEY : forall p k, In p stored -> CodegenSpec.stores sem (snd p) (do_pk (mo_code m)) k -> field (do_pkcol (mo_code m)) (fst p) = Some k /\ kn' (table_name m) k = Present (snd p)).
  { intros p k Hp Hst. rewrite Forall_forall in S2. destruct (S2 p Hp) as (k0 & P1 & P2 & P3 & (P4 & _)).
    destruct (P4 (do_pk (mo_code m))) as (v & V1 & V2); [apply (pk_row resolve (mo_decl m) (mo_code m)); apply DP|].
    rewrite (pkcol_eq resolve (mo_decl m) (mo_code m) (dp_code _ _ _ _ _ _ _ _ _ _ _ _ _ _ DP)) in *. rewrite (stores_fun sem _ _ _ _ V1 Hst) in V2. rewrite P2 in V2. injection V2 as ->. auto. }
  exists D', stored. split; [assumption|]. split; [assumption|]. split; [|split].
  - intros k o Kk. split.
    + intros Ek. pose proof (R m k Hm Kk) as [_ R1]. rewrite Ek in R1. destruct R1 as [(r & Hr & Hk) _].
      rewrite <- S1 in Hr. apply in_map_iff in Hr as (p & Ep & Hp). rewrite Forall_forall in S2. destruct (S2 p Hp) as (k0 & P1 & P2 & P3 & P4).
      assert (k0 = k) as -> by (apply (HK k r k0); [assumption|rewrite <- S1, <- Ep; now apply in_map|now rewrite <- Ep|assumption]).
      rewrite Ek in P1. injection P1 as ->. split; [now apply in_map|].
      destruct P4 as (P4 & _). destruct (P4 (do_pk (mo_code m))) as (v & V1 & V2); [apply (pk_row resolve (mo_decl m) (mo_code m)); apply DP|].
      rewrite (pkcol_eq resolve (mo_decl m) (mo_code m) (dp_code _ _ _ _ _ _ _ _ _ _ _ _ _ _ DP)) in P2. rewrite P2 in V2. injection V2 as <-. exact V1.
    + intros [Ho Hst]. apply in_map_iff in Ho as (p & <- & Hp). exact (proj2 (KEY p k Hp Hst)).
  - intros i j o o' k Hi Hj Hs Hs'. rewrite nth_error_map in Hi, Hj. destruct (nth_error stored i) as [p|] eqn:Ei; [|discriminate Hi]. destruct (nth_error stored j) as [q|] eqn:Ej; [|discriminate Hj].
    injection Hi as <-. injection Hj as <-. destruct (KEY p k (nth_error_In _ _ Ei) Hs) as [F1 _]. destruct (KEY q k (nth_error_In _ _ Ej) Hs') as [F2 _].
    destruct (proj1 (mi_columns _ _ _ _ _ _ _ (dp_model _ _ _ _ _ _ _ _ _ _ _ _ _ _ DP)) (do_pk (mo_code m))) as (c & Hc & CF); [apply (pk_row resolve (mo_decl m) (mo_code m)); apply DP|].
    rewrite (pkcol_eq resolve (mo_decl m) (mo_code m) (dp_code _ _ _ _ _ _ _ _ _ _ _ _ _ _ DP)) in F1, F2.
    rewrite <- (cf_name _ _ _ _ CF) in F1, F2.
    assert (Kk : given_fits json_text (mo_tab m) (do_pkcol (mo_code m)) k).
    { unfold model_table in T. rewrite Forall_forall in T. destruct (T (fst p)) as [_ (v & Hv & Kv)]; [rewrite <- S1; apply in_map; eapply nth_error_In; eassumption|].
      rewrite (pkcol_eq resolve (mo_decl m) (mo_code m) (dp_code _ _ _ _ _ _ _ _ _ _ _ _ _ _ DP)) in *. rewrite <- (cf_name _ _ _ _ CF) in Hv. rewrite F1 in Hv. injection Hv as <-. exact Kv. }
    assert (Q : equal E k k) by (apply (EX k k Kk Kk); reflexivity).
    assert (Ni : nth_error (D' (table_name m)) i = Some (fst p)) by (rewrite <- S1, nth_error_map, Ei; reflexivity).
    assert (Nj : nth_error (D' (table_name m)) j = Some (fst q)) by (rewrite <- S1, nth_error_map, Ej; reflexivity).
    assert (TB : In (table_name m, mo_tab m) (a_tables d)) by exact (mi_table _ _ _ _ _ _ _ (dp_model _ _ _ _ _ _ _ _ _ _ _ _ _ _ DP)).
    assert (PK : c_pk c = true) by (apply (cf_pk _ _ _ _ CF); reflexivity).
    pose proof (lg_keys _ _ _ (kp_legal _ _ _ _ _ _ _ KP') (table_name m) (mo_tab m) c) as LK.
    destruct (Nat.lt_trichotomy i j) as [L|[L|L]]; [exfalso|exact L|exfalso].
    + exact (LK i j _ _ k k TB Hc (or_introl PK) L Ni Nj F1 F2 Q).
    + exact (LK j i _ _ k k TB Hc (or_introl PK) L Nj Ni F2 F1 Q).
  - intros x QF NL FT. exact (C60_load_partial _ _ _ _ _ _ _ _ _ _ _ _ _ _ _ _ _ _ _ _ DP KP' TO QF NL FT).
Qed.
Print Assumptions C60_history_partial.

(** ** Two posts *)
Definition ld_saved (k : Z) : @object rvalue (many Z) := sv_post (Some k) "hello" None (ex_tags_of k [] []).
(** The posts whose key is not 1, the newest first, at most five. *)
Definition ld_query : Query :=
  {| q_table := "posts"; q_filter := Some (BNe "id" (EVal (VBigInt 1))); q_limit := Some 5%Z; q_offset := None; q_sort := [{| ord_desc := true; ord_column := "id" |}] |}.
Lemma ld_stores k : CodegenSpec.stores post_sem (ld_saved k) (do_pk post_code) (VBigInt k).
Proof. exists (existT rust (RAutoPk (RInt I64)) (Some k)). split; vm_compute; reflexivity. Qed.
Lemma ld_key k : (- 2 ^ 63 <= k < 2 ^ 63)%Z -> given_fits Some sv_table "id" (VBigInt k).
Proof.
  intros H. exists sv_key. split; [cbn; auto|]. split; [reflexivity|]. exists TBigInt. split; [reflexivity|]. split; [now right|]. split; [exact H|].
  split; [intros (? & ? & Y); discriminate Y|]. split; discriminate.
Qed.
Lemma ld_row D db r : keeps Some st_engine ex_conv true sv_schema D db -> In r (D "posts"%string) -> exists z, field "id" r = Some (VBigInt z).
Proof.
  intros KP Hr. pose proof (kp_fit _ _ _ _ _ _ _ KP "posts"%string sv_table (or_intror (or_introl eq_refl))) as F. rewrite Forall_forall in F. destruct (F r Hr) as (N & C & G).
  assert (Hc : In "id"%string (map fst r)) by (apply C; exists sv_key; split; [cbn; auto|reflexivity]).
  apply in_map_iff in Hc as ([n v] & En & Hp). cbn in En. subst n. rewrite Forall_forall in G. pose proof (G _ Hp) as Gv. cbn in Gv. apply sv_keys in Gv as (z & -> & _).
  exists z. clear - N Hp. induction r as [|[n v] r IH]; [destruct Hp|]. cbn in *. inversion N; subst. destruct Hp as [[= -> ->]|Hp]; [reflexivity|].
  destruct (String.eqb_spec n "id"%string) as [->|]; [|now apply IH]. exfalso. apply H1. change "id"%string with (fst ("id"%string, VBigInt z)). now apply in_map.
Qed.
Lemma ld_ord a b : e_ord st_engine (VBigInt a) (VBigInt b) = Z.compare a b.
Proof. reflexivity. Qed.
Lemma ld_fits D db : keeps Some st_engine ex_conv true sv_schema D db -> query_fits st_engine sqlite_like "posts" D ld_query.
Proof.
  intros KP. constructor.
  - reflexivity.
  - intros e [= <-]. split; [exact Logic.I|]. split; [|constructor]. cbn. repeat split; vm_compute; reflexivity.
  - intros r Hr. destruct (ld_row D db r KP Hr) as (z & Hz). eexists. unfold means, compare_col, lookup. cbn. rewrite Hz. reflexivity.
  - intros o [<-|[]]. cbn [ord_column]. split; [reflexivity|]. split; [|split].
    + intros r Hr. destruct (ld_row D db r KP Hr) as (z & Hz). eauto.
    + intros a b (r & Hr & Ha) (q & Hq & Hb). destruct (ld_row D db r KP Hr) as (y & Hy). destruct (ld_row D db q KP Hq) as (z & Hz).
      rewrite Hy in Ha. rewrite Hz in Hb. injection Ha as <-. injection Hb as <-. rewrite !ld_ord. apply Z.compare_antisym.
    + intros a b c (r & Hr & Ha) (q & Hq & Hb) (p & Hp & Hc). destruct (ld_row D db r KP Hr) as (y & Hy). destruct (ld_row D db q KP Hq) as (z & Hz). destruct (ld_row D db p KP Hp) as (w & Hw).
      rewrite Hy in Ha. rewrite Hz in Hb. rewrite Hw in Hc. injection Ha as <-. injection Hb as <-. injection Hc as <-. rewrite !ld_ord. apply Z.le_trans.
  - exact Logic.I.
Qed.

Lemma ld_matches D db r z : keeps Some st_engine ex_conv true sv_schema D db -> field "id" r = Some (VBigInt z) ->
  row_matches st_engine D "posts" (q_filter ld_query) r = negb (Z.eqb z 1).
Proof.
  intros KP Hz. unfold row_matches. cbn [q_filter ld_query]. unfold means, compare_col, lookup. cbn. rewrite Hz. cbn. unfold compare3. cbn. rewrite Z.eqb_compare. destruct (Z.compare z 1); reflexivity.
Qed.

(** Two posts are saved. The query finds the second of them and no other. *)
Example C60_case : exists db kn, hs_history (sv_db [] [] []) (fun _ _ => Absent) db kn
  /\ kn "posts"%string (VBigInt 1) = Present (ld_saved 1) /\ kn "posts"%string (VBigInt 2) = Present (ld_saved 2)
  /\ forall r, sqlite_load_answers (X := Z) Some ddl_kw sqlite_like st_engine post_sem post_code ld_query db r ->
       exists o l, r = Ok (o :: l) /\ Forall (equal_objects table_resolve post (ld_saved 2)) (o :: l).
Proof.
  destruct C58_case as (HC & Hst & FS & _).
  destruct (learns (U := rvalue) (X := Z) (fun _ _ => Absent) hs_model (VBigInt 1) (Present (ld_saved 1))) as (kn0 & L0).
  destruct (learns kn0 hs_model (VBigInt 2) (Present (ld_saved 2))) as (kn1 & L1).
  assert (HC2 : exists db2, sv_save (sv_post None "hello" None ex_new_tags) (hs_db "hello" hs_tags) = (Ok tt, ld_saved 2, db2)) by (eexists; vm_compute; reflexivity).
  destruct HC2 as (db2 & HC2).
  assert (H : hs_history (sv_db [] [] []) (fun _ _ => Absent) db2 kn1).
  { eapply one_more with (m := hs_model); [now left| |].
    { eapply saved with (o := sv_post None "hello" None ex_new_tags); [exact (sv_fits _ (or_introl eq_refl))|exact sv_numbers|exact HC|exact Hst|exact FS| |exact L0].
      intros (_ & u & Hu & Hv). vm_compute in Hu. injection Hu as <-. discriminate Hv. }
    eapply one_more with (m := hs_model); [now left| |apply no_more].
    eapply saved with (o := sv_post None "hello" None ex_new_tags) (o' := ld_saved 2); [exact (sv_fits _ (or_introl eq_refl))|numbers_tac|exact HC2|exact (ld_stores 2)|survive| |exact L1].
    intros (_ & u & Hu & Hv). vm_compute in Hu. injection Hu as <-. discriminate Hv. }
  assert (P2 : kn1 "posts"%string (VBigInt 2) = Present (ld_saved 2)) by exact (proj1 L1).
  assert (P1 : kn1 "posts"%string (VBigInt 1) = Present (ld_saved 1)) by (rewrite (proj2 L1); [exact (proj1 L0)|right; discriminate]).
  assert (PN : forall k, k <> VBigInt 1 -> k <> VBigInt 2 -> kn1 "posts"%string k = Absent) by (intros k N1 N2; rewrite (proj2 L1), (proj2 L0); auto).
  exists db2, kn1. split; [exact H|]. split; [exact P1|]. split; [exact P2|].
  destruct (C60_history_partial _ _ _ _ _ _ _ _ _ _ _ _ _ _ _ _ _ _ _ _ _ hs_model hs_deployed hs_apart sv_kept (fun _ _ => eq_refl) H (or_introl eq_refl)) as (D & st & KP & TO & KN & _ & Q).
  { intros k. cbn [mo_code hs_model]. change (do_table post_code) with "posts"%string.
    destruct (sqlval_dec k (VBigInt 1)) as [->|N1]; [rewrite P1; discriminate|]. destruct (sqlval_dec k (VBigInt 2)) as [->|N2]; [rewrite P2; discriminate|]. rewrite PN; auto; discriminate. }
  cbn [mo_code mo_decl mo_tab hs_model] in *. change (do_table post_code) with "posts"%string in *. rewrite hs_table_key in *.
  intros r Hr. destruct (proj2 (Q ld_query (ld_fits D db2 KP) ltac:(cbn; lia) ltac:(cbn; discriminate)) r Hr) as (found & l & -> & (ch & C1 & C2 & C3) & A).
  assert (KEY : forall p, In p st -> exists z, field "id" (fst p) = Some (VBigInt z) /\ CodegenSpec.stores post_sem (snd p) (do_pk post_code) (VBigInt z) /\ kn1 "posts"%string (VBigInt z) = Present (snd p)).
  { intros p Hp. destruct TO as [T1 T2]. rewrite Forall_forall in T2. destruct (T2 p Hp) as (R1 & _).
    assert (Hr1 : In (fst p) (D "posts"%string)) by (change "posts"%string with (do_table post_code); rewrite <- T1; now apply in_map).
    destruct (ld_row D db2 (fst p) KP Hr1) as (z & Hz). exists z. split; [exact Hz|].
    assert (S : CodegenSpec.stores post_sem (snd p) (do_pk post_code) (VBigInt z)).
    { destruct (R1 (do_pk post_code)) as (v & V1 & V2); [apply (pk_row table_resolve post post_code); apply sv_deployed|].
      rewrite <- (pkcol_eq table_resolve post post_code (dp_code _ _ _ _ _ _ _ _ _ _ _ _ _ _ sv_deployed)), hs_table_key, Hz in V2. injection V2 as <-. exact V1. }
    split; [exact S|]. apply KN; [|split; [now apply in_map|exact S]].
    pose proof (kp_fit _ _ _ _ _ _ _ KP "posts"%string sv_table (or_intror (or_introl eq_refl))) as F. rewrite Forall_forall in F. destruct (F _ Hr1) as (_ & _ & G). rewrite Forall_forall in G.
    assert (In ("id"%string, VBigInt z) (fst p)) as Hi.
    { clear - Hz. induction (fst p) as [|[n v] l IH]; [discriminate|]. cbn in Hz. destruct (String.eqb_spec n "id"%string) as [->|]; [injection Hz as ->; now left|right; auto]. }
    exact (G _ Hi). }
  assert (CH : forall p, In p ch -> snd p = ld_saved 2).
  { intros p Hp. apply (Permutation_in _ (Permutation_sym C1)) in Hp. apply filter_In in Hp as [Hp Hm]. destruct (KEY p Hp) as (z & K1 & K2 & K3).
    change (do_table post_code) with "posts"%string in Hm. rewrite (ld_matches D db2 (fst p) z KP K1) in Hm.
    destruct (Z.eqb_spec z 1) as [_|N1]; [discriminate Hm|]. destruct (Z.eq_dec z 2) as [Y|N2].
    - rewrite Y, P2 in K3. injection K3 as K3. now rewrite K3.
    - rewrite PN in K3; [discriminate K3|intros [= Y]; exact (N1 Y)|intros [= Y]; exact (N2 Y)]. }
  assert (NE : exists p rest, ch = p :: rest).
  { destruct (proj1 (KN (VBigInt 2) (ld_saved 2) (ld_key 2 ltac:(lia))) P2) as [Hi _]. apply in_map_iff in Hi as (p & Ep & Hp).
    assert (Hc : In p ch).
    { apply (Permutation_in _ C1). apply filter_In. split; [exact Hp|]. destruct (KEY p Hp) as (z & K1 & K2 & _). change (do_table post_code) with "posts"%string. rewrite (ld_matches D db2 (fst p) z KP K1).
      rewrite Ep in K2. pose proof (stores_fun post_sem _ _ _ _ K2 (ld_stores 2)) as [= ->]. reflexivity. }
    destruct ch as [|c rest]; [destruct Hc|]. eauto. }
  destruct NE as (p & rest & ->). cbn [q_limit q_offset ld_query StmtSpec.take StmtSpec.drop] in C3. change (Z.to_nat 5) with 5 in C3. change (firstn 5 (p :: rest)) with (p :: firstn 4 rest) in C3. cbn [map] in C3.
  assert (B : Forall (fun x => x = ld_saved 2) (map snd (firstn 4 rest))).
  { apply Forall_forall. intros x Hx. apply in_map_iff in Hx as (q & <- & Hq). apply CH. right. rewrite <- (firstn_skipn 4 rest). apply in_or_app. now left. }
  revert B. rewrite C3 in A. clear C3. generalize dependent (map snd (firstn 4 rest)). intros fl A B.
  inversion A as [|? o ? l' EQ A' E1 E2]. subst. exists o, l'. split; [reflexivity|]. constructor; [now rewrite <- (CH p (or_introl eq_refl))|].
  clear - A' B. revert B. induction A' as [|a b la lb H A' IH]; intros B; constructor; inversion B; subst; auto.
Qed.
