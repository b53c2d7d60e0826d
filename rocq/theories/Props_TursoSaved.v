(** Property C62: objects and relations on a deployed Turso database. *)
From Coq Require Import Permutation Sorting.Sorted.
From Verif Require Import Base SqlVal Adb AdbSpec Conv ConvProofs Sql SqlStmt Query QuerySpec Stmt StmtSpec LiteralSpec Ddl DdlSpec
  Backend BackendSpec Turso TursoSpec TursoExample SqliteSem MigrateSpec SqliteData DataCalls StoredSpec Conn ConnProofs Many ManyProofs Codegen CodegenSpec
  CodegenProofs Obj ObjSpec ObjProofs Props_Query Props_Models Props_Objects Props_Schema Props_TursoScript Props_Migrations Props_Migrate Props_Stored
  Saved SavedSpec SavedProofs Props_Saved HistorySpec HistoryProofs Props_History Loaded LoadedSpec LoadedProofs Props_Loaded
  Related RelatedSpec RelatedProofs Props_Related Props_Turso TursoSaved TursoSavedSpec TursoSavedProofs.

(** * C62 *)

(** Saving an object on Turso does what it does on SQLite: to the database, to the object
    and in what it returns.  So does deleting one. *)
Theorem C62_save : forall U X json_text resolve sem valid init s g kw dl conv veq read strict E fresh d t D db (o : @object U (many X)),
  deployed json_text resolve sem s g kw dl conv veq read strict E d t ->
  keeps json_text E conv strict d D db -> numbers_fit json_text fresh d db -> object_fits json_text resolve sem valid init s g d t o ->
  save_on (turso_methods json_text kw dl conv veq read E fresh) sem valid init g o db
  = save_on (sqlite_methods json_text kw dl conv veq read E fresh) sem valid init g o db.
Proof.
  intros U X json_text resolve sem valid init s g kw dl conv veq read strict E fresh d t D db o DP KP NF OF.
  exact (save_same json_text resolve sem valid init s g kw dl conv veq read strict E fresh d t DP D db o KP NF OF).
Qed.
Print Assumptions C62_save.
Theorem C62_delete : forall U X json_text resolve sem s g kw dl conv veq read strict E fresh d t db (o : @object U (many X)),
  deployed json_text resolve sem s g kw dl conv veq read strict E d t ->
  delete_on (turso_methods json_text kw dl conv veq read E fresh) sem g o db
  = delete_on (sqlite_methods json_text kw dl conv veq read E fresh) sem g o db.
Proof.
  intros U X json_text resolve sem s g kw dl conv veq read strict E fresh d t db o DP.
  exact (delete_same json_text resolve sem s g kw dl conv veq read strict E fresh d t DP db o).
Qed.
Print Assumptions C62_delete.
(** So do saving, emptying and setting a relation. *)
Theorem C62_relation : forall X json_text kw dl conv veq read E fresh (R : related X) (m : many X) l db,
  quotes_enough kw dl -> reserved dl "owner" = false -> identifier (m_table m) = true ->
  many_save_on (turso_methods json_text kw dl conv veq read E fresh) m db = many_save_on (sqlite_methods json_text kw dl conv veq read E fresh) m db
  /\ many_delete_on (turso_methods json_text kw dl conv veq read E fresh) m db = many_delete_on (sqlite_methods json_text kw dl conv veq read E fresh) m db
  /\ many_set_on (turso_methods json_text kw dl conv veq read E fresh) R m l db = many_set_on (sqlite_methods json_text kw dl conv veq read E fresh) R m l db.
Proof.
  intros X json_text kw dl conv veq read E fresh R m l db KW RO HT. split; [|split].
  - apply many_save_same; auto.
  - apply many_delete_same; auto.
  - apply many_set_same; auto.
Qed.
Print Assumptions C62_relation.

(** An object that was saved is got back.  Missing, as on SQLite: an object whose automatic
    key is set and whose row is gone (C58_missing_row_refuted). *)
Theorem C62_round_trip_partial : forall U X json_text resolve sem valid init s g kw dl conv veq read strict E fresh d t D db db'
    (o o' : @object U (many X)) kv C conn_query c,
  deployed json_text resolve sem s g kw dl conv veq read strict E d t -> turso_like dl E ->
  keeps json_text E conv strict d D db -> numbers_fit json_text fresh d db -> object_fits json_text resolve sem valid init s g d t o ->
  save_on (turso_methods json_text kw dl conv veq read E fresh) sem valid init g o db = (Ok tt, o', db') ->
  CodegenSpec.stores sem o' (do_pk g) kv -> fields_survive resolve sem s o' ->
  (numbered_already valid g o -> row_exists E g D kv) ->
  connected C conn_query dl E db' ->
  exists o2 c', turso_get (X := X) json_text kw C conn_query sem g c kv = Ok (o2, c') /\ equal_objects resolve s o' o2.
Proof.
  intros U X json_text resolve sem valid init s g kw dl conv veq read strict E fresh d t D db db' o o' kv C conn c DP TL KP NF OF H Hst FS HR AN.
  rewrite (C62_save _ _ _ _ _ _ _ _ _ _ _ _ _ _ _ _ _ _ _ _ _ _ DP KP NF OF) in H.
  destruct (C58_round_trip_partial _ _ _ _ _ _ _ _ _ _ _ _ _ _ _ _ _ _ _ _ _ _ _ _ _ DP KP NF OF H Hst FS HR) as [_ G].
  destruct (saved_conn json_text resolve sem valid init s g kw dl conv veq read strict E fresh d t DP D db db' o o' kv KP NF OF H Hst)
    as (kv0 & D' & fs & K' & Kk & _).
  destruct (get_same_turso (X := X) json_text resolve sem s g kw dl conv veq read strict E d t DP C conn TL D' db' kv c K' AN Kk) as (r & c' & ET & A).
  destruct (G r A) as (o2 & -> & EQ). exists o2, c'. auto.
Qed.
Print Assumptions C62_round_trip_partial.

(** A query gives the stored objects it asks for, in an order it asks for; a limit and an
    offset choose among them.  Missing: filters with a subquery in a subquery, which are
    answered with an error (C28_nested_subquery_refuted). *)
Theorem C62_load_partial : forall U X json_text resolve sem s g kw dl conv veq read strict E d t D db x
    (stored : list (Sql.row * @object U (many X))) C conn_query c,
  deployed json_text resolve sem s g kw dl conv veq read strict E d t -> turso_like dl E ->
  keeps json_text E conv strict d D db -> table_of resolve sem s g D stored ->
  query_fits E dl (do_table g) D x -> nonneg (q_limit x) -> StmtSpec.fits Sqlite x (q_limit x) D -> turso_can E D x ->
  connected C conn_query dl E db ->
  exists found l c', turso_load (X := X) json_text kw C conn_query sem g c x = Ok (l, c')
    /\ query_finds g E D stored x (q_limit x) found /\ all_equal resolve s found l.
Proof.
  intros U X json_text resolve sem s g kw dl conv veq read strict E d t D db x stored C conn c DP TL KP TO QF NL FT CAN AN.
  destruct (load_same (X := X) json_text resolve sem s g kw dl conv veq read strict E d t DP C conn TL D db x c KP AN QF NL FT CAN) as (r & c' & ET & A).
  destruct (proj2 (C60_load_partial _ _ _ _ _ _ _ _ _ _ _ _ _ _ _ _ _ _ _ _ DP KP TO QF NL FT) r A) as (found & l & -> & F & Q). exists found, l, c'. auto.
Qed.
Print Assumptions C62_load_partial.
Theorem C62_load_first_partial : forall U X json_text resolve sem s g kw dl conv veq read strict E d t D db x
    (stored : list (Sql.row * @object U (many X))) C conn_query c,
  deployed json_text resolve sem s g kw dl conv veq read strict E d t -> turso_like dl E ->
  keeps json_text E conv strict d D db -> table_of resolve sem s g D stored ->
  query_fits E dl (do_table g) D x -> turso_can E D x -> connected C conn_query dl E db ->
  exists found r c', turso_load_first (X := X) json_text kw C conn_query sem g c x = Ok (r, c')
    /\ query_finds g E D stored x None found
    /\ match found, r with [], None => True | o :: _, Some o2 => equal_objects resolve s o o2 | _, _ => False end.
Proof.
  intros U X json_text resolve sem s g kw dl conv veq read strict E d t D db x stored C conn c DP TL KP TO QF CAN AN.
  destruct (load_first_same (X := X) json_text resolve sem s g kw dl conv veq read strict E d t DP C conn TL D db x c KP AN QF CAN) as (r & c' & ET & A).
  destruct (proj2 (C60_load_first_partial _ _ _ _ _ _ _ _ _ _ _ _ _ _ _ _ _ _ _ _ DP KP TO QF) r A) as (found & F & M).
  destruct found as [|o l]; [subst r; exists [], None, c'; auto|]. destruct M as (o2 & -> & EQ). exists (o :: l), (Some o2), c'. auto.
Qed.
Print Assumptions C62_load_first_partial.

(** Loading a relation gives the stored objects the relation table has for its owner, then
    those that were added and are yet to be saved. *)
Theorem C62_related : forall U X json_text resolve sem valid s g kw dl conv veq read strict E d t D db
    (stored : list (Sql.row * @object U (many X))) (m : many (@object U (many X))) owner order C conn_query c,
  deployed json_text resolve sem s g kw dl conv veq read strict E d t -> turso_like dl E ->
  keeps json_text E conv strict d D db -> table_of resolve sem s g D stored ->
  relation_in d (m_table m) owner -> (order <> None -> keys_ordered E (given_fits json_text t (do_pkcol g))) ->
  m_owner m = Some owner -> m_all m = None -> Forall (fun v => ~ is_custom v) (m_new m) ->
  connected C conn_query dl E db ->
  exists here new l c', turso_many_load json_text kw C conn_query sem valid g c m order = (Ok (l, c'), set_all m (Some l))
    /\ exactly_those (related_in sem g E D (m_table m) owner) (map snd stored) here /\ in_order sem g E order here
    /\ exactly_those (key_in sem g E (m_new m)) (map snd stored) new
    /\ all_equal resolve s (here ++ new) l.
Proof.
  intros U X json_text resolve sem valid s g kw dl conv veq read strict E d t D db stored m owner order C conn c DP TL KP TO RI KO Ho Ha NC AN.
  destruct (many_load_same (X := X) json_text resolve sem s g kw dl conv veq read strict E d t DP C conn TL D db m owner order valid c KP AN RI KO Ho NC) as (r & c' & m' & ET & A).
  destruct (proj2 (C61_load _ _ _ _ _ _ _ _ _ _ _ _ _ _ _ _ _ _ _ _ _ _ _ DP KP TO RI KO Ho Ha NC) r m' A) as (here & new & l & -> & -> & H).
  exists here, new, l, c'. split; [exact ET|exact H].
Qed.
Print Assumptions C62_related.
(** What was loaded or set is given again without asking the database, and a field that
    belongs to no object yet has nothing. *)
Theorem C62_related_again : forall U X json_text sem valid g kw C conn_query c (m : many (@object U (many X))) order,
  (m_owner m = None \/ exists l, m_all m = Some l) ->
  turso_many_load json_text kw C conn_query sem valid g c m order
  = (Ok (match m_owner m, m_all m with Some _, Some l => l | _, _ => [] end, c), m).
Proof.
  intros U X json_text sem valid g kw C conn c m order H. unfold turso_many_load, many_query.
  destruct (m_owner m) as [owner|]; [|reflexivity]. destruct H as [H|(l & ->)]; [discriminate H|]. reflexivity.
Qed.
Print Assumptions C62_related_again.

(** Deleting by a query without subqueries removes the rows it asks for, or does nothing
    because others refer to them.  Missing: C62_delete_refuted. *)
Theorem C62_delete_query_partial : forall U json_text resolve (sem : ty -> codec U) s g kw dl conv veq read strict E fresh d t D db x,
  deployed json_text resolve sem s g kw dl conv veq read strict E d t ->
  keeps json_text E conv strict d D db -> numbers_fit json_text fresh d db -> query_fits E dl (do_table g) D x -> no_subqueries x ->
  exists D', D' (do_table g) = filter (fun r => negb (row_matches E D (do_table g) (q_filter x) r)) (D (do_table g))
    /\ (forall n, n <> do_table g -> D' n = D n)
    /\ ((exists db', turso_delete_query kw dl conv veq read E fresh x db = (Ok tt, db') /\ keeps json_text E conv strict d D' db')
        \/ (turso_delete_query kw dl conv veq read E fresh x db = (Err (DbError 1), db) /\ ~ references_kept E d (do_table g) D')).
Proof.
  intros U json_text resolve sem s g kw dl conv veq read strict E fresh d t D db x DP KP NF QF NS.
  assert (EQ : turso_delete_query kw dl conv veq read E fresh x db = sqlite_delete_query kw dl conv veq read E fresh x db).
  { destruct QF as [Qt Qf Qc Qs Qo]. unfold turso_delete_query, sqlite_delete_query. pose proof DP as [Hc Hg ST IE US NO MI EX].
    apply (run_delete kw dl conv veq read E fresh (sr_quotes _ _ _ _ _ _ _ ST)); [rewrite Qt; exact (nm_table _ _ _ NO)|..];
      destruct (q_filter x) as [e|] eqn:Ef; try exact Logic.I; try exact (proj1 (Qf e eq_refl)); try exact (proj1 (proj2 (Qf e eq_refl))). exact (NS e Ef). }
  rewrite EQ. exact (C60_delete_partial _ _ _ _ _ _ _ _ _ _ _ _ _ _ _ _ _ _ _ DP KP NF QF).
Qed.
Print Assumptions C62_delete_query_partial.

(** Whatever is stored, a delete by a query with a subquery is refused and does nothing. *)
Theorem C62_delete_subquery : forall U json_text resolve (sem : ty -> codec U) s g kw dl conv veq read strict E fresh d t D db x,
  deployed json_text resolve sem s g kw dl conv veq read strict E d t ->
  query_fits E dl (do_table g) D x -> ~ no_subqueries x ->
  turso_delete_query kw dl conv veq read E fresh x db = (Err (DbError 1), db).
Proof.
  intros U json_text resolve sem s g kw dl conv veq read strict E fresh d t D db x DP QF NS. destruct QF as [Qt Qf Qc Qs Qo].
  pose proof DP as [Hc Hg ST IE US NO MI EX]. unfold turso_delete_query. unfold no_subqueries in NS.
  destruct (q_filter x) as [e|]; [|exfalso; apply NS; intros e He; discriminate He]. destruct (Qf e eq_refl) as (B & S & NC).
  apply (run_delete_select kw dl conv veq read E fresh); auto; [rewrite Qt; exact (nm_table _ _ _ NO)|].
  intros N. apply NS. intros e' [= <-]. exact N.
Qed.
Print Assumptions C62_delete_subquery.

(** * Histories *)
Section History.
Context {U X : Type}.
Variable json_text : string -> option string.
Variable resolve : bool -> list string -> string -> option string.
Variable sem : ty -> codec U.
Variable valid : U -> bool.
Variable init : U -> SqlVal -> outcome unit * U.
Variable kw : string -> bool.
Variable dl : dialect.
Variable conv : bool -> list string -> lvalue -> option lvalue.
Variable veq : lvalue -> lvalue -> bool.
Variable read : bool -> string -> f64.
Variable strict : bool.
Variable E : engine.
Variable fresh : etab -> Z.
Variable d : ADB.
Variable models : list model.
Hypothesis AD : all_deployed json_text resolve sem kw dl conv veq read strict E d models.
Hypothesis AP : apart resolve models.

Lemma turso_step_same D db kn m db' kn' : In m models -> keeps json_text E conv strict d D db ->
  @turso_step U X json_text resolve sem valid init kw dl conv veq read E fresh d m db kn db' kn' ->
  @step U X json_text resolve sem valid init kw dl conv veq read E fresh d m db kn db' kn'.
Proof.
  intros Hm KP H. pose proof (AD m Hm) as DP.
  assert (SV : forall o : @object U (many X), object_fits json_text resolve sem valid init (mo_decl m) (mo_code m) d (mo_tab m) o -> numbers_fit json_text fresh d db ->
    save_on (turso_methods json_text kw dl conv veq read E fresh) sem valid init (mo_code m) o db = save_on (sqlite_methods json_text kw dl conv veq read E fresh) sem valid init (mo_code m) o db)
    by (intros o OF NF; exact (C62_save _ _ _ _ _ _ _ _ _ _ _ _ _ _ _ _ _ _ _ _ _ _ DP KP NF OF)).
  destruct H as [db kn o o' k db' kn' OF NF H Hst FS P L|db kn o o' k db' OF NF H Hst NA P|db kn o o' k db' kn' e OF NF H Hst L|db kn o o' db' r OF NF NP H Hno|db kn o k db' kn' Hst Kk H L|db kn o k db' e Hst Kk H];
    try rewrite (SV o OF NF) in H; try rewrite (C62_delete _ _ _ _ _ _ _ _ _ _ _ _ _ _ _ _ _ _ _ DP) in H.
  - eapply saved; eauto.
  - eapply saved_nothing; eauto.
  - eapply not_saved; eauto.
  - eapply not_keyed; eauto.
  - eapply deleted; eauto.
  - eapply not_deleted; eauto.
Qed.
Lemma turso_history_inv db kn db' kn' : @turso_history U X json_text resolve sem valid init kw dl conv veq read E fresh d models db kn db' kn' ->
  forall D, inv json_text resolve sem kw dl conv strict E d models D db kn -> exists D', inv json_text resolve sem kw dl conv strict E d models D' db' kn'.
Proof.
  induction 1 as [db kn|db kn m db1 kn1 db2 kn2 Hm Hs _ IH]; intros D I; [eauto|].
  destruct (step_inv json_text resolve sem valid init kw dl conv veq read strict E fresh d models AD AP D db kn m db1 kn1 Hm (turso_step_same D db kn m db1 kn1 Hm (proj1 I) Hs) I) as (D1 & I1).
  exact (IH D1 I1).
Qed.
End History.

(** Whatever saves and deletes come before, on objects of any of the models, [get] finds
    each object as it was saved last and none that was deleted or never saved.  Missing,
    as on SQLite: C58_missing_row_refuted. *)
Theorem C62_history_partial : forall U X json_text resolve sem valid init kw dl conv veq read strict E fresh d models D db kn db' kn' C conn_query m k,
  all_deployed json_text resolve sem kw dl conv veq read strict E d models -> apart resolve models -> turso_like dl E ->
  keeps json_text E conv strict d D db -> known_before (X := X) E models D kn ->
  @turso_history U X json_text resolve sem valid init kw dl conv veq read E fresh d models db kn db' kn' ->
  connected C conn_query dl E db' -> In m models -> given_fits json_text (mo_tab m) (do_pkcol (mo_code m)) k ->
  turso_found (X := X) json_text resolve sem kw C conn_query m k (kn' (table_name m) k).
Proof.
  intros U X json_text resolve sem valid init kw dl conv veq read strict E fresh d models D db kn db' kn' C conn m k AD AP TL KP KB H AN Hm Kk.
  assert (I : inv json_text resolve sem kw dl conv strict E d models D db kn).
  { split; [assumption|]. intros m0 k0 Hm0 Kk0. destruct (KB m0 k0 Hm0) as [-> | [-> N]]; [split; exact Logic.I|].
    now apply (absent_right json_text resolve sem kw dl conv veq read strict E d models AD). }
  destruct (turso_history_inv json_text resolve sem valid init kw dl conv veq read strict E fresh d models AD AP db kn db' kn' H D I) as (D' & KP' & R).
  pose proof (proj1 (R m k Hm Kk)) as F.
  pose proof (fun c => get_same_turso (X := X) json_text resolve sem (mo_decl m) (mo_code m) kw dl conv veq read strict E d (mo_tab m) (AD m Hm) C conn TL D' db' k c KP' AN Kk) as G.
  unfold turso_found, found in *. destruct (kn' (table_name m) k) as [|o|]; [| |exact Logic.I].
  - intros c. destruct (G c) as (r & c' & ET & A). apply F in A. subst r. exact ET.
  - intros c. destruct (G c) as (r & c' & ET & A). destruct (proj2 F r A) as (o2 & -> & EQ). exists o2, c'. auto.
Qed.
Print Assumptions C62_history_partial.

(** ** A case *)
Definition lite_veq (l m : lvalue) : bool := match tcmp (st (as_val l)) (st (as_val m)) with Some Eq => true | _ => false end.
Lemma lite_bound v : st (bound_as v) = st v.
Proof.
  destruct v; try reflexivity; unfold bound_as; cbn [sqlite_write].
  all: try (cbn; destruct (f64_is_nan _) eqn:Ef; cbn; rewrite ?Ef; reflexivity).
  all: try (destruct b; reflexivity).
Qed.
Example lite_stores : StoredSpec.stores ddl_kw sqlite_like ex_conv lite_veq ex_read true lite_engine.
Proof.
  constructor; [exact (proj1 ddl_kw_ok)|reflexivity|exact lite_ok| |exact (ex_storage _)].
  constructor; intros; cbn [e_cmp e_like e_ord lite_engine]; rewrite ?lite_bound; try reflexivity.
  unfold lite_veq, equal, compare3. cbn [e_cmp lite_engine]. destruct (tcmp _ _) as [[]|]; cbn; intuition congruence.
Qed.
Example ts_deployed : deployed Some table_resolve post_sem post post_code ddl_kw sqlite_like ex_conv lite_veq ex_read true lite_engine sv_schema sv_table.
Proof.
  destruct sv_deployed as [H1 H2 _ _ H5 H6 H7 _]. destruct C31_case as (_ & _ & _ & _ & _ & C6 & _). constructor; try assumption.
  - exact lite_stores.
  - intros z. unfold equal, compare3. cbn. now rewrite Z.compare_refl.
  - rewrite C6. intros x y Hx Hy. apply sv_keys in Hx as (a & -> & _). apply sv_keys in Hy as (c & -> & _). unfold compare3. cbn.
    destruct (Z.compare_spec a c) as [Hx|Hx|Hx]; split; intros Hy; try congruence; inversion Hy; subst; lia.
Qed.
Example ts_kept : keeps Some lite_engine ex_conv true sv_schema (fun _ => []) (sv_db [] [] []).
Proof.
  destruct sv_kept as [H1 H2 H3 H4 H5 _]. constructor; try assumption. constructor; [intros; now destruct i|]. intros n t c f r x _ _ _ [].
Qed.
Example ts_like : turso_like sqlite_like lite_engine.
Proof. split; [reflexivity|exact lite_alike]. Qed.
(** One row per table at most: the connection of TursoExample.v answers. *)
Definition few (db : edb) : Prop := Forall (fun p => List.length (b_rows (snd p)) <= 1) db.
Lemma few_connected db : few db -> connected unit (small_query sqlite_like (shown_db db)) sqlite_like lite_engine db.
Proof.
  intros F. apply small_answers.
  - intros n. unfold shown_db. destruct (mget n db) as [b|] eqn:Eb; [|cbn; lia]. rewrite map_length.
    apply mget_In in Eb. exact (proj1 (Forall_forall _ _) F _ Eb).
  - intros n r c v H Hv. unfold shown_db in H. destruct (mget n db) as [b|]; [|destruct H]. apply in_map_iff in H as (r0 & <- & _).
    apply in_map_iff in Hv as ((c0 & l) & [= _ <-] & _). destruct l; eexists; constructor.
Qed.
Definition one_tag : many Z := set_pending many_new [VInt 1] [].
Notation ts_M := (turso_methods Some ddl_kw sqlite_like ex_conv lite_veq ex_read lite_engine st_fresh).
Notation ts_save := (save_on ts_M post_sem rv_valid rv_init post_code).
Definition ts_post : @object rvalue (many Z) := sv_post None "hello" None one_tag.
Definition ts_saved : @object rvalue (many Z) := sv_post (Some 1%Z) "hello" None (ex_tags_of 1 [] []).
Definition ts_full : edb := sv_db [] [[("title", LText "hello"); ("type", LNull); ("blog", LNull); ("id", LInteger 1)]] [[("owner", LInteger 1); ("has", LInteger 1)]].
Definition ts_conn := small_query sqlite_like (shown_db ts_full).
Example ts_fits : object_fits Some table_resolve post_sem rv_valid rv_init post post_code sv_schema sv_table ts_post.
Proof.
  destruct (sv_fits None (or_introl eq_refl)) as [F1 F2 F3]. constructor.
  - intros f v Hf Ho (u & Hu & Ht).
    assert (G : obj_get ts_post (sf_ident f) = obj_get (sv_post None "hello" None ex_new_tags) (sf_ident f))
      by (clear - Hf; vm_compute in Hf; destruct Hf as [<-|[<-|[<-|[<-|[]]]]]; reflexivity).
    apply (F1 f v Hf); [exact Ho|]. exists u. rewrite <- G. auto.
  - exact F2.
  - intros f Hf. vm_compute in Hf. destruct Hf as [<-|[]]. exists one_tag. split; [reflexivity|]. split; [now left|]. split; [|constructor].
    intros rt H. cbn in H. destruct H as [H|[H|[H|[]]]]; try discriminate H. injection H as <-.
    repeat constructor; (exists (col "has" TInt); split; [now left|]; split; [reflexivity|]; exists TInt; split; [reflexivity|]; split; [now right|];
      split; [cbn; lia|]; split; [intros (? & ? & Y); discriminate Y|]; split; discriminate).
Qed.
(** A post with a tag is saved and got back; a connection that has it answers. *)
Example C62_case : ts_save ts_post (sv_db [] [] []) = (Ok tt, ts_saved, ts_full)
  /\ CodegenSpec.stores post_sem ts_saved (do_pk post_code) (VBigInt 1) /\ fields_survive table_resolve post_sem post ts_saved
  /\ numbers_fit Some st_fresh sv_schema (sv_db [] [] []) /\ connected unit ts_conn sqlite_like lite_engine ts_full
  /\ (exists o2, turso_get (X := Z) Some ddl_kw unit ts_conn post_sem post_code tt (VBigInt 1) = Ok (o2, tt) /\ equal_objects table_resolve post ts_saved o2)
  /\ turso_get (X := Z) Some ddl_kw unit ts_conn post_sem post_code tt (VBigInt 2) = Err NoSuchObject
  /\ (exists db', delete_on ts_M post_sem post_code ts_saved ts_full = (Ok tt, db') /\ mget "posts"%string db' = mget "posts"%string (sv_db [] [] [])).
Proof.
  assert (H1 : ts_save ts_post (sv_db [] [] []) = (Ok tt, ts_saved, ts_full)) by (vm_compute; reflexivity).
  assert (H2 : CodegenSpec.stores post_sem ts_saved (do_pk post_code) (VBigInt 1)) by (exists (existT rust (RAutoPk (RInt I64)) (Some 1%Z)); split; vm_compute; reflexivity).
  assert (H3 : fields_survive table_resolve post_sem post ts_saved) by survive.
  assert (H5 : connected unit ts_conn sqlite_like lite_engine ts_full) by (apply few_connected; repeat constructor).
  split; [exact H1|]. split; [exact H2|]. split; [exact H3|]. split; [exact sv_numbers|]. split; [exact H5|]. split; [|split].
  - destruct (C62_round_trip_partial _ _ _ _ _ _ _ _ _ _ _ _ _ _ _ _ _ _ _ _ _ _ _ _ _ unit ts_conn tt ts_deployed ts_like ts_kept sv_numbers ts_fits H1 H2 H3) as (o2 & [] & G & EQ); [|exact H5|eauto].
    intros (_ & u & Hu & Hv). vm_compute in Hu. injection Hu as <-. discriminate Hv.
  - vm_compute. reflexivity.
  - eexists. split; vm_compute; reflexivity.
Qed.
(** The rows that are then there. *)
Definition ts_row : Sql.row := [("title", VText "hello"); ("type", VNull); ("blog", VNull); ("id", VBigInt 1)].
Definition ts_link : Sql.row := [("owner", VBigInt 1); ("has", VInt 1)].
Definition ts_rows : Sql.db := fun n => if String.eqb n "posts" then [ts_row] else if String.eqb n "posts_tags_Many" then [ts_link] else [].
Ltac takes_tac c ty := exists c; split; [cbn; auto 10|]; split; [reflexivity|]; exists ty; split; [reflexivity|]; split; [now (left + right)|];
  split; [first [exact Logic.I|cbn; lia]|]; split; [intros (? & ? & Y); discriminate Y|]; split; [discriminate|first [discriminate|split; reflexivity]].
Example ts_keeps : keeps Some lite_engine ex_conv true sv_schema ts_rows ts_full.
Proof.
  destruct ts_kept as [H1 H2 H3 H4 H5 _]. constructor.
  - repeat constructor.
  - apply realises_ok. vm_compute. reflexivity.
  - intros n. unfold ts_full, sv_db, ts_rows. cbn [mget]. destruct (keqb n "Blog"%string) eqn:E0; [apply keqb_eq in E0; subst n; constructor|].
    destruct (keqb n "posts"%string) eqn:E1; [apply keqb_eq in E1; subst n; cbn; repeat constructor|].
    destruct (keqb n "posts_tags_Many"%string) eqn:E2; [apply keqb_eq in E2; subst n; cbn; repeat constructor|].
    destruct (String.eqb_spec n "posts") as [->|]; [discriminate E1|]. destruct (String.eqb_spec n "posts_tags_Many") as [->|]; [discriminate E2|reflexivity].
  - intros n t H. cbn in H. destruct H as [[= <- <-]|[[= <- <-]|[[= <- <-]|[]]]]; unfold ts_rows; cbn [String.eqb Ascii.eqb Bool.eqb]; [constructor|..];
      (constructor; [|constructor]); (split; [|split]); [repeat constructor; cbn; intuition discriminate| |repeat apply Forall_cons; [..|constructor]|repeat constructor; cbn; intuition discriminate| |repeat apply Forall_cons; [..|constructor]]; cbn [fst snd].
    + intros n. split.
      * intros [<-|[<-|[<-|[<-|[]]]]]; [exists (col "title" TText)|exists (sv_opt "type" TInt None)|exists (hd sv_key (t_cols sv_table))|exists sv_key]; cbn; auto 10.
      * intros (c & [<-|[<-|[<-|[<-|[]]]]] & <-); cbn; auto 10.
    + takes_tac (col "title" TText) TText.
    + takes_tac (sv_opt "type" TInt None) TInt.
    + takes_tac (hd sv_key (t_cols sv_table)) TBigInt.
    + takes_tac sv_key TBigInt.
    + intros n. split.
      * intros [<-|[<-|[]]]; [exists (col "owner" TBigInt)|exists (col "has" TInt)]; cbn; auto.
      * intros (c & [<-|[<-|[]]] & <-); cbn; auto.
    + takes_tac (col "owner" TBigInt) TBigInt.
    + takes_tac (col "has" TInt) TInt.
  - intros n b Hb. unfold ts_full, sv_db in Hb. cbn [mget] in Hb. destruct (keqb n "Blog"%string) eqn:E1; [injection Hb as <-; right; reflexivity|].
    destruct (keqb n "posts"%string) eqn:E2; [left; apply keqb_eq in E2; subst n; exists sv_table; cbn; auto|].
    destruct (keqb n "posts_tags_Many"%string); [injection Hb as <-; right; reflexivity|discriminate Hb].
  - constructor.
    + intros n t c i j r s x y _ _ _ L Hi Hj. exfalso. assert (LL : List.length (ts_rows n) <= 1) by (unfold ts_rows; do 2 (destruct (String.eqb _ _); [cbn; lia|]); cbn; lia).
      assert (j < List.length (ts_rows n)) by (apply nth_error_Some; congruence). lia.
    + intros n t c f r x H Hc (q & Er & ->) Hr Hx. cbn in H.
      destruct H as [[= <- <-]|[[= <- <-]|[[= <- <-]|[]]]]; cbn in Hc; repeat (destruct Hc as [<-|Hc]; [try discriminate Er|]); try destruct Hc.
      injection Er as <-. cbn in Hr. destruct Hr as [<-|[]]. cbn in Hx. injection Hx as <-. now left.
Qed.
Example ts_table : table_of table_resolve post_sem post post_code ts_rows [(ts_row, ts_saved)].
Proof.
  split; [reflexivity|]. constructor; [|constructor]. split; [|split]; cbn [fst snd].
  - intros f Hf. vm_compute in Hf. destruct Hf as [<-|[<-|[<-|[<-|[]]]]]; [exists (VText "hello")|exists (VBigInt 1)|exists VNull|exists VNull];
      (split; [|vm_compute; reflexivity]);
      [exists (existT rust RString "hello"%string)|exists (existT rust (RAutoPk (RInt I64)) (Some 1%Z))|exists (existT rust (ROption (RInt I32)) None)|exists (existT rust (ROption (RInt I64)) None)];
      (split; vm_compute; reflexivity).
  - survive.
  - exists (VBigInt 1). split; [exact (proj1 (proj2 C62_case))|]. intros f Hf. vm_compute in Hf. destruct Hf as [<-|[]]. exists (ex_tags_of 1 [] []). repeat split.
Qed.

(** ** Queries *)
(** The posts that have the tag 1, the newest first. *)
Definition ts_filter : BoolExpr := BSubquery "id" "posts_tags_Many" "owner" (BEq "has" (EVal (VInt 1))).
Definition ts_query : Query :=
  {| q_table := "posts"; q_filter := Some ts_filter; q_limit := Some 5%Z; q_offset := None; q_sort := [{| ord_desc := true; ord_column := "id" |}] |}.
Lemma ts_column v : in_column ts_rows "posts" "id" v -> v = VBigInt 1.
Proof. intros (r & [<-|[]] & H). cbn in H. now injection H. Qed.
Example ts_query_fits : query_fits lite_engine sqlite_like "posts" ts_rows ts_query.
Proof.
  constructor.
  - reflexivity.
  - intros e [= <-]. split; [exact Logic.I|]. split; [vm_compute; tauto|]. repeat constructor; intros (? & ? & Y); discriminate Y.
  - intros r [<-|[]]. eexists. vm_compute. reflexivity.
  - intros o [<-|[]]. cbn [ord_column]. split; [reflexivity|]. split; [|split].
    + intros r [<-|[]]. eexists. reflexivity.
    + intros a b Ha Hb. apply ts_column in Ha, Hb. subst. reflexivity.
    + intros a b c Ha Hb Hc. apply ts_column in Ha, Hb, Hc. subst. auto.
  - exact Logic.I.
Qed.
Example ts_can : turso_can lite_engine ts_rows ts_query.
Proof.
  intros e [= <-]. split; [exact Logic.I|]. exists ts_row. eexists. split; [|vm_compute; reflexivity].
  repeat constructor; intros (? & ? & Y); discriminate Y.
Qed.
(** It gives the post that was saved; so does loading the relation. *)
Definition ts_field (l : option (list (@object rvalue (many Z)))) : many (@object rvalue (many Z)) :=
  {| m_table := "posts_tags_Many"; m_owner := Some (VBigInt 1); m_otype := TBigInt; m_new := []; m_removed := []; m_all := l |}.
Example C62_load_case : exists o2, equal_objects table_resolve post ts_saved o2
  /\ turso_load (X := Z) Some ddl_kw unit ts_conn post_sem post_code tt ts_query = Ok ([o2], tt)
  /\ turso_load_first (X := Z) Some ddl_kw unit ts_conn post_sem post_code tt ts_query = Ok (Some o2, tt)
  /\ turso_many_load Some ddl_kw unit ts_conn post_sem rv_valid post_code tt (ts_field None) None = (Ok ([o2], tt), ts_field (Some [o2])).
Proof.
  pose proof (proj1 (proj2 (proj2 (proj2 (proj2 C62_case))))) as H5.
  destruct (C62_load_partial _ _ _ _ _ _ _ _ _ _ _ _ _ _ _ _ _ _ _ _ unit ts_conn tt ts_deployed ts_like ts_keeps ts_table ts_query_fits ltac:(cbn; lia) ltac:(cbn; discriminate) ts_can H5)
    as (found & l & [] & L & (ch & C1 & _ & C3) & A).
  assert (K : exists o2, turso_load (X := Z) Some ddl_kw unit ts_conn post_sem post_code tt ts_query = Ok ([o2], tt)
    /\ turso_load_first (X := Z) Some ddl_kw unit ts_conn post_sem post_code tt ts_query = Ok (Some o2, tt)
    /\ turso_many_load Some ddl_kw unit ts_conn post_sem rv_valid post_code tt (ts_field None) None = (Ok ([o2], tt), ts_field (Some [o2])))
    by (eexists; split; [vm_compute; reflexivity|]; split; vm_compute; reflexivity).
  destruct K as (o2 & K1 & K2 & K3). exists o2. split; [|auto]. rewrite K1 in L. injection L as <-.
  vm_compute in C1. apply Permutation_length_1_inv in C1. subst ch. vm_compute in C3. subst found. now inversion A.
Qed.
Example C62_related_case : exists l, turso_many_load Some ddl_kw unit ts_conn post_sem rv_valid post_code tt (ts_field None) (Some true) = (Ok (l, tt), ts_field (Some l))
  /\ all_equal table_resolve post [ts_saved] l.
Proof.
  pose proof (proj1 (proj2 (proj2 (proj2 (proj2 C62_case))))) as H5.
  assert (RI : relation_in sv_schema (m_table (ts_field None)) (VBigInt 1)).
  { split; [reflexivity|]. split; [discriminate|]. split; [intros (? & ? & Y); discriminate Y|]. eexists. split; [right; right; left; reflexivity|].
    intros n. split; [intros (c & [<-|[<-|[]]] & <-); cbn; auto|]. intros [-> | ->]; unfold has_column; cbn; [exists (col "owner" TBigInt)|exists (col "has" TInt)]; auto. }
  assert (KO : Some true <> None -> keys_ordered lite_engine (given_fits Some sv_table (do_pkcol post_code))).
  { intros _. rewrite hs_table_key. split.
    - intros a b Ha Hb. apply sv_keys in Ha as (x & -> & _). apply sv_keys in Hb as (y & -> & _). apply Z.compare_antisym.
    - intros a b c Ha Hb Hc. apply sv_keys in Ha as (x & -> & _). apply sv_keys in Hb as (y & -> & _). apply sv_keys in Hc as (z & -> & _). apply Z.le_trans. }
  destruct (C62_related _ _ _ _ _ rv_valid _ _ _ _ _ _ _ _ _ _ _ _ _ _ (ts_field None) (VBigInt 1) (Some true) unit ts_conn tt ts_deployed ts_like ts_keeps ts_table RI KO eq_refl eq_refl (Forall_nil _) H5)
    as (here & new & l & [] & L & (rest & PM & F1 & F2) & _ & (rest2 & PM2 & G1 & _) & A). exists l. split; [exact L|].
  assert (N : new = []).
  { destruct new as [|x new]; [reflexivity|]. inversion G1 as [|? ? (k & _ & v & [] & _)]. }
  subst new. rewrite app_nil_r in A. apply Permutation_length_1_inv in PM.
  destruct here as [|x here]; [|destruct here; [injection PM as -> _; exact A|discriminate PM]].
  exfalso. cbn in PM. subst rest. inversion F2 as [|? ? NR _]. apply NR. exists ts_link, (VBigInt 1), (VInt 1), (VBigInt 1).
  split; [now left|]. split; [reflexivity|]. split; [vm_compute; reflexivity|]. split; [reflexivity|]. split; [exact (proj1 (proj2 C62_case))|vm_compute; reflexivity].
Qed.

(** Deleting by the same query, which finds the post, is refused on Turso, as by any filter
    with a subquery (C62_delete_subquery); SQLite deletes the post. *)
Theorem C62_delete_refuted : exists x,
  deployed Some table_resolve post_sem post post_code ddl_kw sqlite_like ex_conv lite_veq ex_read true lite_engine sv_schema sv_table
  /\ turso_like sqlite_like lite_engine /\ keeps Some lite_engine ex_conv true sv_schema ts_rows ts_full
  /\ query_fits lite_engine sqlite_like (do_table post_code) ts_rows x /\ turso_can lite_engine ts_rows x
  /\ (exists o, turso_load (X := Z) Some ddl_kw unit ts_conn post_sem post_code tt x = Ok ([o], tt))
  /\ turso_delete_query ddl_kw sqlite_like ex_conv lite_veq ex_read lite_engine st_fresh x ts_full = (Err (DbError 1), ts_full)
  /\ (exists db', sqlite_delete_query ddl_kw sqlite_like ex_conv lite_veq ex_read lite_engine st_fresh x ts_full = (Ok tt, db')
        /\ mget "posts"%string db' = mget "posts"%string (sv_db [] [] [])).
Proof.
  exists ts_query. split; [exact ts_deployed|]. split; [exact ts_like|]. split; [exact ts_keeps|]. split; [exact ts_query_fits|]. split; [exact ts_can|].
  split; [destruct C62_load_case as (o2 & _ & L & _); eauto|]. split; [vm_compute; reflexivity|]. eexists. split; vm_compute; reflexivity.
Qed.
Print Assumptions C62_delete_refuted.
Example C62_delete_case : let x := {| q_table := "posts"; q_filter := Some (BEq "title" (EVal (VText "hello"))); q_limit := None; q_offset := None; q_sort := [] |} in
  no_subqueries x /\ query_fits lite_engine sqlite_like "posts" ts_rows x
  /\ exists db', turso_delete_query ddl_kw sqlite_like ex_conv lite_veq ex_read lite_engine st_fresh x ts_full = (Ok tt, db')
        /\ mget "posts"%string db' = mget "posts"%string (sv_db [] [] []).
Proof.
  cbv zeta. split; [intros e [= <-]; exact Logic.I|]. split.
  - constructor; [reflexivity| | |intros o []|exact Logic.I].
    + intros e [= <-]. split; [exact Logic.I|]. split; [vm_compute; tauto|]. repeat constructor; intros (? & ? & Y); discriminate Y.
    + intros r [<-|[]]. eexists. vm_compute. reflexivity.
  - eexists. split; vm_compute; reflexivity.
Qed.

(** A post is saved, changed and deleted: it is found as changed, then not at all. *)
Notation ts_history := (turso_history Some table_resolve post_sem rv_valid rv_init ddl_kw sqlite_like ex_conv lite_veq ex_read lite_engine st_fresh sv_schema [hs_model]).
Definition ts_changed : edb := sv_db [] [[("title", LText "bye"); ("type", LNull); ("blog", LNull); ("id", LInteger 1)]] [[("owner", LInteger 1); ("has", LInteger 1)]].
Definition ts_empty : edb := sv_db [] [] [[("owner", LInteger 1); ("has", LInteger 1)]].
Example C62_history_case : exists kn1 kn2,
  ts_history (sv_db [] [] []) (fun _ _ => Absent) ts_changed kn1 /\ kn1 "posts"%string (VBigInt 1) = Present (hs_saved "bye")
  /\ ts_history ts_changed kn1 ts_empty kn2 /\ kn2 "posts"%string (VBigInt 1) = Absent
  /\ (exists o, turso_get (X := Z) Some ddl_kw unit (small_query sqlite_like (shown_db ts_changed)) post_sem post_code tt (VBigInt 1) = Ok (o, tt)
        /\ equal_objects table_resolve post (hs_saved "bye") o)
  /\ turso_get (X := Z) Some ddl_kw unit (small_query sqlite_like (shown_db ts_empty)) post_sem post_code tt (VBigInt 1) = Err NoSuchObject.
Proof.
  destruct C62_case as (HC & Hst & FS & NF & _).
  destruct (learns (U := rvalue) (X := Z) (fun _ _ => Absent) hs_model (VBigInt 1) (Present ts_saved)) as (kn0 & L0).
  destruct (learns kn0 hs_model (VBigInt 1) (Present (hs_saved "bye"))) as (kn1 & L1).
  destruct (learns kn1 hs_model (VBigInt 1) Absent) as (kn2 & L2).
  assert (H1 : ts_history (sv_db [] [] []) (fun _ _ => Absent) ts_changed kn1).
  { eapply turso_one_more with (m := hs_model); [now left| |].
    { eapply turso_saved with (o := ts_post); [exact ts_fits|exact NF|exact HC|exact Hst|exact FS| |exact L0].
      intros (_ & u & Hu & Hv). vm_compute in Hu. injection Hu as <-. discriminate Hv. }
    eapply turso_one_more with (m := hs_model); [now left| |apply turso_no_more].
    eapply turso_saved with (o := hs_saved "bye") (o' := hs_saved "bye"); [exact hs_fits|numbers_tac|vm_compute; reflexivity|exact hs_stores|survive| |exact L1].
    intros _. exists ts_saved. exact (proj1 L0). }
  assert (H3 : ts_history ts_changed kn1 ts_empty kn2).
  { eapply turso_one_more with (m := hs_model); [now left| |apply turso_no_more].
    eapply turso_deleted with (o := hs_saved "bye"); [exact hs_stores|cbn [mo_tab mo_code hs_model]; rewrite hs_table_key; exact hs_key|vm_compute; reflexivity|exact L2]. }
  exists kn1, kn2. split; [exact H1|]. split; [exact (proj1 L1)|]. split; [exact H3|]. split; [exact (proj1 L2)|].
  assert (KK : given_fits Some (mo_tab hs_model) (do_pkcol (mo_code hs_model)) (VBigInt 1)) by (cbn [mo_tab mo_code hs_model]; rewrite hs_table_key; exact hs_key).
  assert (AD : all_deployed Some table_resolve post_sem ddl_kw sqlite_like ex_conv lite_veq ex_read true lite_engine sv_schema [hs_model]) by (intros m [<-|[]]; exact ts_deployed).
  assert (KB : known_before (U := rvalue) (X := Z) lite_engine [hs_model] (fun _ => []) (fun _ _ => Absent)) by (intros m k _; right; split; [reflexivity|]; intros (x & [] & _)).
  assert (H4 : ts_history (sv_db [] [] []) (fun _ _ => Absent) ts_empty kn2).
  { clear - H1 H3. induction H1; [exact H3|]. eapply turso_one_more; eauto. }
  split.
  - pose proof (C62_history_partial _ _ _ _ _ _ _ _ _ _ _ _ _ _ _ _ _ _ _ _ _ _ unit (small_query sqlite_like (shown_db ts_changed)) hs_model (VBigInt 1) AD hs_apart ts_like ts_kept KB H1
      ltac:(apply few_connected; repeat constructor) (or_introl eq_refl) KK) as F.
    replace (kn1 (table_name hs_model) (VBigInt 1)) with (Present (hs_saved "bye")) in F by (symmetry; exact (proj1 L1)). destruct (F tt) as (o2 & [] & G & EQ). eauto.
  - pose proof (C62_history_partial _ _ _ _ _ _ _ _ _ _ _ _ _ _ _ _ _ _ _ _ _ _ unit (small_query sqlite_like (shown_db ts_empty)) hs_model (VBigInt 1) AD hs_apart ts_like ts_kept KB H4
      ltac:(apply few_connected; repeat constructor) (or_introl eq_refl) KK) as F.
    replace (kn2 (table_name hs_model) (VBigInt 1)) with (@Absent (@object rvalue (many Z))) in F by (symmetry; exact (proj1 L2)). exact (F tt).
Qed.
