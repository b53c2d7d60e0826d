(** Property C61: relations loaded on a deployed SQLite database. *)
From Coq Require Import Permutation Sorting.Sorted.
From Verif Require Import Base SqlVal Adb AdbSpec Conv ConvProofs Sql SqlStmt Query QuerySpec Stmt StmtSpec LiteralSpec Ddl DdlSpec SqliteSem SqliteData
  Backend BackendSpec MigrateSpec DataCalls StoredSpec Conn ConnProofs Many ManyProofs Codegen CodegenSpec CodegenProofs Obj ObjSpec ObjProofs
  Props_Query Props_Models Props_Objects Props_Schema Props_TursoScript Props_Migrations Props_Migrate Props_Stored Saved SavedSpec SavedProofs
  Props_Saved HistorySpec HistoryProofs Props_History Loaded LoadedSpec LoadedProofs Props_Loaded Related RelatedSpec RelatedProofs Props_Relations.

Section Load.
Context {U X : Type}.
Variable json_text : string -> option string.
Variable resolve : bool -> list string -> string -> option string.
Variable sem : ty -> codec U.
Variable s : sdef.
Variable g : dbobject.
Variable kw : string -> bool.
Variable dl : dialect.
Variable conv : bool -> list string -> lvalue -> option lvalue.
Variable veq : lvalue -> lvalue -> bool.
Variable read : bool -> string -> f64.
Variable strict : bool.
Variable E : engine.
Variable d : ADB.
Variable t : ATable.
Hypothesis DP : deployed json_text resolve sem s g kw dl conv veq read strict E d t.
Notation keeps := (keeps json_text E conv strict d).
Notation object := (@object U (many X)).
Notation K := (given_fits json_text t (do_pkcol g)).
Notation load := (sqlite_load_answers (X := X) json_text kw dl E sem g).

Lemma exactly_filter (P : object -> Prop) (f : Sql.row -> bool) (stored chosen : list (Sql.row * object)) :
  (forall p, In p stored -> (f (fst p) = true <-> P (snd p))) -> Permutation (filter (fun p => f (fst p)) stored) chosen ->
  exactly_those P (map snd stored) (map snd chosen).
Proof.
  intros H PM. exists (map snd (filter (fun p => negb (f (fst p))) stored)). split; [|split].
  - rewrite <- map_app. apply Permutation_map. eapply Permutation_trans; [|apply Permutation_app_tail, PM].
    clear. induction stored as [|p l IH]; [constructor|]. cbn. destruct (f (fst p)); cbn.
    + now constructor.
    + eapply Permutation_trans; [|apply Permutation_middle]. now constructor.
  - apply Forall_map, Forall_forall. intros p Hp. apply (Permutation_in p (Permutation_sym PM)), filter_In in Hp as [Hp Hf]. now apply H.
  - apply Forall_map, Forall_forall. intros p Hp. apply filter_In in Hp as [Hp Hf]. intros HP. apply (H p Hp) in HP. now rewrite HP in Hf.
Qed.
Lemma row_key D (stored : list (Sql.row * object)) p : table_of resolve sem s g D stored -> In p stored ->
  exists k, field (do_pkcol g) (fst p) = Some k /\ CodegenSpec.stores sem (snd p) (do_pk g) k.
Proof.
  intros [_ T] Hp. rewrite Forall_forall in T. destruct (T p Hp) as (H & _). destruct (H (do_pk g)) as (v & V1 & V2); [apply (pk_row resolve s g); apply DP|].
  exists v. rewrite (pkcol_eq resolve s g (dp_code _ _ _ _ _ _ _ _ _ _ _ _ _ _ DP)). auto.
Qed.
Lemma among_equal x l : among E x l = true <-> exists v, In v l /\ equal E x v.
Proof.
  unfold among. rewrite existsb_exists. split; intros (v & Hv & H); exists v; (split; [exact Hv|]); unfold same, equal in *; destruct (compare3 E CEq x v) as [[|]|]; congruence.
Qed.
Lemma partners_equal D n owner v : In v (partners E D n owner) <-> exists r x, In r (D n) /\ field "owner" r = Some x /\ equal E x owner /\ field "has" r = Some v.
Proof.
  unfold partners. rewrite in_flat_map. split.
  - intros (r & Hr & Hv). unfold has_key in Hv. destruct (field "owner" r) as [x|] eqn:Ex; [|destruct Hv]. destruct (compare3 E CEq x owner) as [[|]|] eqn:Ec; try destruct Hv.
    destruct (field "has" r) as [y|] eqn:Ey; [|destruct Hv]. destruct Hv as [<-|[]]. exists r, x. auto.
  - intros (r & x & Hr & Ho & He & Hh). exists r. split; [exact Hr|]. unfold has_key. rewrite Ho. unfold equal in He. rewrite He, Hh. now left.
Qed.

Definition first_asked (n : string) (owner : SqlVal) (order : option bool) : Query :=
  let x := set_filter (BSubquery (do_pkcol g) n "has" (BEq "owner" (EVal owner))) (q_new (do_table g)) in
  match order with None => x | Some desc => add_order (do_pkcol g) desc x end.
Lemma relation_rows D db n owner : keeps D db -> relation_in d n owner -> relation_table D n.
Proof.
  intros KP (_ & _ & _ & rt & Hrt & RF). eapply Forall_impl; [|exact (kp_fit _ _ _ _ _ _ _ KP _ rt Hrt)].
  cbn beta. intros r (_ & N2 & _) c [<-|[<-|[]]]; apply N2, RF; auto.
Qed.
Lemma pk_rows D db : keeps D db -> Forall (fun r : Sql.row => In (do_pkcol g) (map fst r)) (D (do_table g)).
Proof.
  intros KP. pose proof (rows_table json_text resolve sem s g kw dl conv veq read strict E d t DP D db KP) as T. unfold model_table in T.
  eapply Forall_impl; [|exact T]. cbn beta. intros r [_ (x & Hx & _)]. clear - Hx. induction r as [|[c v] r IH]; [discriminate|]. cbn in *.
  destruct (String.eqb_spec c (do_pkcol g)) as [->|]; [now left|right; auto].
Qed.
Lemma pk_name : identifier (do_pkcol g) = true.
Proof.
  pose proof (nm_cols _ _ _ (dp_names _ _ _ _ _ _ _ _ _ _ _ _ _ _ DP)) as F. rewrite Forall_forall in F. apply F.
  apply (pk_in resolve s g); apply DP.
Qed.
Lemma key_kept D db r v : keeps D db -> In r (D (do_table g)) -> field (do_pkcol g) r = Some v -> K v.
Proof.
  intros KP Hr Hv. pose proof (rows_table json_text resolve sem s g kw dl conv veq read strict E d t DP D db KP) as T. unfold model_table in T. rewrite Forall_forall in T.
  destruct (T r Hr) as [_ (x & Hx & Kx)]. rewrite Hv in Hx. now injection Hx as ->.
Qed.
Lemma first_fits D db n owner order : keeps D db -> relation_in d n owner -> (order <> None -> keys_ordered E K) ->
  query_fits E dl (do_table g) D (first_asked n owner order).
Proof.
  intros KP RI KO. pose proof (relation_rows D db n owner KP RI) as RT. pose proof RI as (Hn & NN & NC & _). constructor.
  - destruct order; reflexivity.
  - intros e He. assert (e = BSubquery (do_pkcol g) n "has" (BEq "owner" (EVal owner))) as -> by (destruct order; now injection He as <-).
    split; [exact Logic.I|]. split.
    + cbn. split; [exact pk_name|]. split; [exact Hn|]. split; [reflexivity|]. split; [|exact Logic.I]. split; [reflexivity|]. exact (nm_owner _ _ _ (dp_names _ _ _ _ _ _ _ _ _ _ _ _ _ _ DP)).
    + cbn [bound_values]. destruct owner; cbn; repeat (constructor; try exact NC).
  - assert (q_filter (first_asked n owner order) = Some (BSubquery (do_pkcol g) n "has" (BEq "owner" (EVal owner)))) as -> by (destruct order; reflexivity).
    apply sub_ok; [exact NN|exact RT|exact (pk_rows D db KP)].
  - destruct order as [desc|]; [|intros o []]. destruct KO as [K1 K2]; [discriminate|]. intros o [<-|[]]. cbn [ord_column]. split; [exact pk_name|]. split; [|split].
    + intros r Hr. pose proof (rows_table json_text resolve sem s g kw dl conv veq read strict E d t DP D db KP) as T. unfold model_table in T. rewrite Forall_forall in T.
      destruct (T r Hr) as [_ (x & Hx & _)]. eauto.
    + intros a b (r & Hr & Ha) (q & Hq & Hb). exact (K1 a b (key_kept D db r a KP Hr Ha) (key_kept D db q b KP Hq Hb)).
    + intros a b c (r & Hr & Ha) (q & Hq & Hb) (w & Hw & Hc). exact (K2 a b c (key_kept D db r a KP Hr Ha) (key_kept D db q b KP Hq Hb) (key_kept D db w c KP Hw Hc)).
  - destruct order; exact Logic.I.
Qed.
Lemma second_fits D db l : keeps D db -> l <> [] -> Forall (fun v => ~ is_custom v) l ->
  query_fits E dl (do_table g) D (set_filter (BIn (do_pkcol g) l) (q_new (do_table g))).
Proof.
  intros KP NE NC. constructor.
  - reflexivity.
  - intros e [= <-]. split; [exact Logic.I|]. split; [cbn; split; [exact pk_name|intros; contradiction]|].
    cbn [bound_values]. apply Forall_forall. intros v Hv. rewrite Forall_forall in NC. apply in_flat_map in Hv as (w & Hw & Hv). destruct w; cbn in Hv; repeat destruct Hv as [<-|Hv]; try destruct Hv; exact (NC _ Hw).
  - apply in_ok. exact (pk_rows D db KP).
  - intros o [].
  - exact Logic.I.
Qed.

Lemma sorted_snd {A B} (R : A -> A -> Prop) (S : B -> B -> Prop) (f : A -> B) l : StronglySorted R l -> (forall a b, In a l -> In b l -> R a b -> S (f a) (f b)) -> StronglySorted S (map f l).
Proof.
  induction 1 as [|a l Hs IH Ha]; intros H; [constructor|]. cbn. constructor.
  - apply IH. intros x y Hx Hy. apply H; now right.
  - apply Forall_map, Forall_forall. intros x Hx. rewrite Forall_forall in Ha. apply H; [now left|now right|auto].
Qed.

(** Loading gives the objects the relation table has for the owner, then those that are
    yet to be saved. *)
Theorem load_relation D db (stored : list (Sql.row * object)) (m : many object) owner order valid :
  keeps D db -> table_of resolve sem s g D stored -> relation_in d (m_table m) owner -> (order <> None -> keys_ordered E K) ->
  m_owner m = Some owner -> m_all m = None -> Forall (fun v => ~ is_custom v) (m_new m) ->
  (exists r m', sqlite_many_load_answers json_text kw dl E sem valid g m order db r m')
  /\ forall r m', sqlite_many_load_answers json_text kw dl E sem valid g m order db r m' ->
       exists here new l, r = Ok l /\ m' = set_all m (Some l)
         /\ exactly_those (related_in sem g E D (m_table m) owner) (map snd stored) here /\ in_order sem g E order here
         /\ exactly_those (key_in sem g E (m_new m)) (map snd stored) new
         /\ all_equal resolve s (here ++ new) l.
Proof.
  intros KP TO RI KO Ho Ha NC.
  pose proof (first_fits D db (m_table m) owner order KP RI KO) as F1.
  assert (NL1 : nonneg (q_limit (first_asked (m_table m) owner order))) by (destruct order; exact Logic.I).
  assert (FT1 : StmtSpec.fits Sqlite (first_asked (m_table m) owner order) (q_limit (first_asked (m_table m) owner order)) D) by (destruct order; cbn; intros _ Y; now destruct Y).
  destruct (C60_load_partial _ _ _ _ _ _ _ _ _ _ _ _ _ _ _ _ _ _ _ _ DP KP TO F1 NL1 FT1) as [(r1 & L1) A1].
  assert (HQ : exists x, many_query (related_model (X := X) sem valid g) m = Ok x /\ (match order with None => x | Some desc => add_order (do_pkcol g) desc x end) = first_asked (m_table m) owner order).
  { unfold many_query. rewrite Ho. eexists. split; [reflexivity|]. destruct order; reflexivity. }
  destruct HQ as (x & Ex & Eo).
  assert (P1 : forall found, query_finds g E D stored (first_asked (m_table m) owner order) (q_limit (first_asked (m_table m) owner order)) found ->
            exactly_those (related_in sem g E D (m_table m) owner) (map snd stored) found /\ in_order sem g E order found).
  { intros found (ch & C1 & C2 & ->). assert (T : StmtSpec.take (q_limit (first_asked (m_table m) owner order)) (StmtSpec.drop (q_offset (first_asked (m_table m) owner order)) ch) = ch) by (destruct order; reflexivity). rewrite T. clear T. split.
    - apply (exactly_filter _ (row_matches E D (do_table g) (q_filter (first_asked (m_table m) owner order)))); [|exact C1]. intros p Hp.
      assert (q_filter (first_asked (m_table m) owner order) = Some (BSubquery (do_pkcol g) (m_table m) "has" (BEq "owner" (EVal owner)))) as -> by (destruct order; reflexivity).
      rewrite (sub_matches E D (do_table g) (do_pkcol g) (m_table m) owner (fst p) (proj1 (proj2 RI)) (relation_rows D db _ _ KP RI)).
      destruct (row_key D stored p TO Hp) as (k & K1 & K2). rewrite K1, among_equal. split.
      + intros (v & Hv & He). apply partners_equal in Hv as (r & y & V1 & V2 & V3 & V4). exists r, y, v, k. auto 10.
      + intros (r & y & v & k' & V1 & V2 & V3 & V4 & V5 & V6). rewrite (stores_fun sem _ _ _ _ V5 K2) in V6. exists v. split; [apply partners_equal; eauto 6|exact V6].
    - destruct order as [desc|]; [|exact Logic.I]. cbn [in_order]. unfold by_key. cbn [first_asked add_order set_filter q_new q_sort app] in C2.
      apply (sorted_snd _ _ _ _ C2). intros p q Hp Hq (y & z & Y1 & Y2 & Y3) k k' Hk Hk'. cbn [ord_column ord_desc] in *.
      apply (Permutation_in _ (Permutation_sym C1)), filter_In in Hp as [Hp _]. apply (Permutation_in _ (Permutation_sym C1)), filter_In in Hq as [Hq _].
      destruct (row_key D stored p TO Hp) as (k1 & K1 & K2). destruct (row_key D stored q TO Hq) as (k2 & K3 & K4).
      rewrite K1 in Y1. injection Y1 as <-. rewrite K3 in Y2. injection Y2 as <-. rewrite (stores_fun sem _ _ _ _ Hk K2), (stores_fun sem _ _ _ _ Hk' K4).
      destruct desc; destruct Y3 as [Y3|[Y3 _]]; rewrite Y3; discriminate. }
  assert (P2 : m_new m <> [] -> (exists r, load (set_filter (BIn (do_pkcol g) (m_new m)) (q_new (do_table g))) db r)
            /\ forall r, load (set_filter (BIn (do_pkcol g) (m_new m)) (q_new (do_table g))) db r -> exists new l, r = Ok l
                 /\ exactly_those (key_in sem g E (m_new m)) (map snd stored) new /\ all_equal resolve s new l).
  { intros NE. pose proof (second_fits D db (m_new m) KP NE NC) as F2.
    destruct (C60_load_partial _ _ _ _ _ _ _ _ _ _ _ _ _ _ _ _ _ _ _ _ DP KP TO F2 Logic.I) as [L2 A2]; [cbn; intros _ Y; now destruct Y|]. split; [exact L2|].
    intros r Hr. destruct (A2 r Hr) as (found & l & -> & (ch & C1 & C2 & ->) & A). cbn [set_filter q_new q_limit q_offset StmtSpec.take StmtSpec.drop q_filter] in *.
    eexists. exists l. split; [reflexivity|]. split; [|exact A].
    apply (exactly_filter _ (row_matches E D (do_table g) (Some (BIn (do_pkcol g) (m_new m))))); [|exact C1]. intros p Hp. rewrite in_matches.
    destruct (row_key D stored p TO Hp) as (k & K1 & K2). rewrite K1, among_equal. split.
    - intros (v & Hv & He). exists k, v. auto.
    - intros (k' & v & V1 & V2 & V3). rewrite (stores_fun sem _ _ _ _ V1 K2) in V3. eauto. }
  unfold sqlite_many_load_answers, sqlite_uncached_answers. rewrite Ex, Ha, Eo. split.
  - destruct (A1 r1 L1) as (h & l1 & -> & _). destruct (m_new m) as [|v vs] eqn:En.
    + do 2 eexists. split; [|reflexivity]. exists (Ok l1). split; [exact L1|reflexivity].
    + destruct P2 as [(r2 & L2) _]; [discriminate|]. do 2 eexists. split; [|reflexivity]. exists (Ok l1). split; [exact L1|]. exists r2. split; [exact L2|reflexivity].
  - intros r m' [(q & Hq & Hr) ->]. destruct (A1 q Hq) as (h & l1 & -> & QF & AE). destruct (P1 h QF) as [PE PO]. destruct (m_new m) as [|v vs] eqn:En.
    + subst r. exists h, [], l1. split; [reflexivity|]. split; [reflexivity|]. split; [exact PE|]. split; [exact PO|]. split; [|now rewrite app_nil_r].
      exists (map snd stored). split; [apply Permutation_refl|]. split; [constructor|]. apply Forall_forall. intros o _ (k & v & _ & [] & _).
    + destruct Hr as (r2 & H2 & ->). destruct P2 as [_ A2]; [discriminate|]. destruct (A2 r2 H2) as (nw & l2 & -> & NE & AN).
      exists h, nw, (l1 ++ l2). split; [reflexivity|]. split; [reflexivity|]. split; [exact PE|]. split; [exact PO|]. split; [exact NE|]. now apply Forall2_app.
Qed.
End Load.

(** * C61 *)

(** Loading a relation of an object gives the stored objects the relation table has for
    it, in the order of their keys if asked for, then those that were added and are yet to
    be saved; and what was loaded is remembered. *)
Theorem C61_load : forall U X json_text resolve sem valid s g kw dl conv veq read strict E d t D db
    (stored : list (Sql.row * @object U (many X))) (m : many (@object U (many X))) owner order,
  deployed json_text resolve sem s g kw dl conv veq read strict E d t ->
  keeps json_text E conv strict d D db -> table_of resolve sem s g D stored ->
  relation_in d (m_table m) owner -> (order <> None -> keys_ordered E (given_fits json_text t (do_pkcol g))) ->
  m_owner m = Some owner -> m_all m = None -> Forall (fun v => ~ is_custom v) (m_new m) ->
  (exists r m', sqlite_many_load_answers json_text kw dl E sem valid g m order db r m')
  /\ forall r m', sqlite_many_load_answers json_text kw dl E sem valid g m order db r m' ->
       exists here new l, r = Ok l /\ m' = set_all m (Some l)
         /\ exactly_those (related_in sem g E D (m_table m) owner) (map snd stored) here /\ in_order sem g E order here
         /\ exactly_those (key_in sem g E (m_new m)) (map snd stored) new
         /\ all_equal resolve s (here ++ new) l.
Proof.
  intros U X json_text resolve sem valid s g kw dl conv veq read strict E d t D db stored m owner order DP KP TO RI KO Ho Ha NC.
  exact (load_relation json_text resolve sem s g kw dl conv veq read strict E d t DP D db stored m owner order valid KP TO RI KO Ho Ha NC).
Qed.
Print Assumptions C61_load.

(** What was loaded or set is given again without a look at the database, and a field
    that belongs to no object yet has nothing. *)
Theorem C61_again : forall U X json_text sem valid g kw dl E (m : many (@object U (many X))) order db r m',
  (m_owner m = None \/ exists l, m_all m = Some l) ->
  (sqlite_many_load_answers json_text kw dl E sem valid g m order db r m' <->
   m' = m /\ r = Ok match m_owner m, m_all m with Some _, Some l => l | _, _ => [] end).
Proof.
  intros U X json_text sem valid g kw dl E m order db r m' H. unfold sqlite_many_load_answers, many_query.
  destruct (m_owner m) as [owner|]; [|intuition]. destruct H as [H|(l & ->)]; [discriminate H|]. intuition.
Qed.
Print Assumptions C61_again.

(** Once an object is saved, loading one of its relations gives exactly the stored objects
    that were related to it before or were added, and were not removed. *)
Theorem C61_saved : forall U X U2 X2 json_text resolve sem valid init s g kw dl conv veq read strict E fresh d t D db db'
    (o o' : @object U (many X)) kv,
  deployed json_text resolve sem s g kw dl conv veq read strict E d t ->
  keeps json_text E conv strict d D db -> numbers_fit json_text fresh d db -> object_fits json_text resolve sem valid init s g d t o ->
  save_on (sqlite_methods json_text kw dl conv veq read E fresh) sem valid init g o db = (Ok tt, o', db') ->
  CodegenSpec.stores sem o' (do_pk g) kv ->
  exists D', keeps json_text E conv strict d D' db'
    /\ (forall n, n <> do_table g -> (forall f, In f (relation_fields resolve s) -> n <> relation_name (do_table g) f) -> D' n = D n)
    /\ forall f m, In f (relation_fields resolve s) -> obj_get o (sf_ident f) = Some (FM m) ->
       forall resolve2 (sem2 : ty -> codec U2) valid2 s2 g2 t2 stored (h : many (@object U2 (many X2))) order,
       deployed json_text resolve2 sem2 s2 g2 kw dl conv veq read strict E d t2 -> table_of resolve2 sem2 s2 g2 D' stored ->
       relation_to json_text g2 d t2 (relation_name (do_table g) f) -> Forall (given_fits json_text t2 (do_pkcol g2)) (m_removed m) ->
       (order <> None -> keys_ordered E (given_fits json_text t2 (do_pkcol g2))) ->
       m_owner h = Some kv -> m_table h = relation_name (do_table g) f -> m_new h = [] -> m_all h = None ->
       (exists r h', sqlite_many_load_answers json_text kw dl E sem2 valid2 g2 h order db' r h')
       /\ forall r h', sqlite_many_load_answers json_text kw dl E sem2 valid2 g2 h order db' r h' ->
            exists here l, r = Ok l
              /\ exactly_those (fun x => (related_in sem2 g2 E D (relation_name (do_table g) f) kv x \/ key_in sem2 g2 E (m_new m) x)
                                         /\ ~ key_in sem2 g2 E (m_removed m) x) (map snd stored) here
              /\ in_order sem2 g2 E order here /\ all_equal resolve2 s2 here l.
Proof.
  intros U X U2 X2 json_text resolve sem valid init s g kw dl conv veq read strict E fresh d t D db db' o o' kv DP KP NF OF H Hst.
  destruct (C58_stored _ _ _ _ _ _ _ _ _ _ _ _ _ _ _ _ _ _ _ _ _ _ _ _ _ DP KP NF OF H Hst) as (_ & D' & K' & REL & _ & _ & OTH).
  destruct (saved_conn json_text resolve sem valid init s g kw dl conv veq read strict E fresh d t DP D db db' o o' kv KP NF OF H Hst) as (_ & _ & _ & _ & Kk & _).
  exists D'. split; [exact K'|]. split; [exact OTH|].
  intros f m Hf Hm resolve2 sem2 valid2 s2 g2 t2 stored h order DP2 TO RT RK KO Ho Ht Hn Ha.
  destruct (REL f m Hf Hm) as (m' & _ & _ & _ & _ & _ & PM). set (n := relation_name (do_table g) f) in *.
  pose proof (dp_exact _ _ _ _ _ _ _ _ _ _ _ _ _ _ DP2) as EX. set (K2 := given_fits json_text t2 (do_pkcol g2)) in *.
  destruct (mi_relations _ _ _ _ _ _ _ (dp_model _ _ _ _ _ _ _ _ _ _ _ _ _ _ DP) f Hf) as (rt & Hrt & RF). fold n in Hrt.
  assert (RI : relation_in d (m_table h) kv).
  { rewrite Ht. split; [|split; [|split]].
    - pose proof (nm_many _ _ _ (dp_names _ _ _ _ _ _ _ _ _ _ _ _ _ _ DP)) as F. rewrite (relations_eq resolve s g (dp_code _ _ _ _ _ _ _ _ _ _ _ _ _ _ DP)) in F.
      rewrite Forall_forall in F. apply (F (sf_ident f, n)). apply in_map_iff. exists f. split; [reflexivity|exact Hf].
    - intros ->. pose proof (proj2 (dp_exact _ _ _ _ _ _ _ _ _ _ _ _ _ _ DP VNull VNull Kk Kk) eq_refl) as Y.
      destruct (dp_engine _ _ _ _ _ _ _ _ _ _ _ _ _ _ DP) as [_ _ EO _ _]. unfold compare3 in Y. rewrite (null_l E EO) in Y. discriminate Y.
    - destruct Kk as (c & _ & _ & ty & _ & _ & _ & NC & _). exact NC.
    - exists rt. split; [exact Hrt|exact (proj1 RF)]. }
  destruct (C61_load _ _ _ _ _ valid2 _ _ _ _ _ _ _ _ _ _ _ _ _ _ h kv order DP2 K' TO RI KO Ho Ha) as [L A]; [rewrite Hn; constructor|]. split; [exact L|].
  intros r h' Hr. destruct (A r h' Hr) as (here & nw & l & -> & _ & EH & OH & EN & AE). rewrite Hn in EN. rewrite Ht in EH.
  assert (nw = []) as -> by (destruct nw as [|x nw]; [reflexivity|]; destruct EN as (rest & _ & F & _); inversion F as [|? ? (k & v & _ & [] & _)]).
  rewrite app_nil_r in AE. exists here, l. split; [reflexivity|]. split; [|auto].
  assert (IFF : forall x, In x (map snd stored) -> (related_in sem2 g2 E D' n kv x <->
            (related_in sem2 g2 E D n kv x \/ key_in sem2 g2 E (m_new m) x) /\ ~ key_in sem2 g2 E (m_removed m) x)).
  { intros x Hx. apply in_map_iff in Hx as (p & <- & Hp).
    destruct (row_key json_text resolve2 sem2 s2 g2 kw dl conv veq read strict E d t2 DP2 D' stored p TO Hp) as (k & F1 & F2).
    assert (Kx : K2 k) by (apply (key_kept json_text resolve2 sem2 s2 g2 kw dl conv veq read strict E d t2 DP2 D' db' (fst p) k K'); [rewrite <- (proj1 TO); now apply in_map|exact F1]).
    assert (KN : Forall K2 (m_new m)).
    { destruct (of_relations _ _ _ _ _ _ _ _ _ _ OF f Hf) as (m0 & Hm0 & _ & FN & _). rewrite Hm in Hm0. injection Hm0 as <-.
      eapply Forall_impl; [|exact (FN rt Hrt)]. intros v. exact (RT rt Hrt v). }
    assert (KD : forall v, In v (partners E D n kv) -> K2 v).
    { intros v Hv. apply partners_equal in Hv as (r0 & y & R1 & _ & _ & R4). pose proof (kp_fit _ _ _ _ _ _ _ KP n rt Hrt) as FR. rewrite Forall_forall in FR.
      destruct (FR r0 R1) as (_ & _ & G). rewrite Forall_forall in G. apply (RT rt Hrt). apply (G ("has"%string, v)).
      clear - R4. induction r0 as [|[c w] r0 IH]; [discriminate|]. cbn in R4. destruct (String.eqb_spec c "has"%string) as [->|]; [injection R4 as ->; now left|right; auto]. }
    assert (RL : forall D0, related_in sem2 g2 E D0 n kv (snd p) <-> exists v, In v (partners E D0 n kv) /\ equal E k v).
    { intros D0. split.
      - intros (r0 & y & v & k' & R1 & R2 & R3 & R4 & R5 & R6). rewrite (stores_fun sem2 _ _ _ _ R5 F2) in R6. exists v. split; [apply partners_equal; eauto 8|exact R6].
      - intros (v & Hv & He). apply partners_equal in Hv as (r0 & y & R1 & R2 & R3 & R4). exists r0, y, v, k. auto 10. }
    assert (KI : forall l, key_in sem2 g2 E l (snd p) <-> exists v, In v l /\ equal E k v).
    { intros l0. split; [intros (k' & v & R1 & R2 & R3); rewrite (stores_fun sem2 _ _ _ _ R1 F2) in R3; eauto|intros (v & R1 & R2); exists k, v; auto]. }
    rewrite !RL, !KI. rewrite Forall_forall in RK, KN. unfold without in PM. split.
    - intros (v & Hv & He). apply (Permutation_in _ PM), filter_In in Hv as [Hv Hr0]. split.
      + apply in_app_or in Hv as [Hv|Hv]; [left|right]; eauto.
      + intros (u & Hu & Heu). assert (K2 v) by (apply in_app_or in Hv as [Hv|Hv]; auto). apply (EX k v) in He; auto. apply (EX k u) in Heu; auto. subst.
        assert (Y : among E u (m_removed m) = true) by (apply among_equal; exists u; split; [exact Hu|]; apply (EX u u); auto). rewrite Y in Hr0. discriminate Hr0.
    - intros [Hv NR]. assert (Hk : In k (partners E D n kv ++ m_new m)).
      { apply in_or_app. destruct Hv as [(v & Hv & He)|(v & Hv & He)]; apply (EX k v) in He; auto; subst v; auto. }
      exists k. split; [|apply (EX k k); auto]. apply (Permutation_in _ (Permutation_sym PM)), filter_In. split; [exact Hk|].
      destruct (among E k (m_removed m)) eqn:Y; [|reflexivity]. exfalso. apply NR. now apply among_equal in Y. }
  destruct EH as (rest & P & F1 & F2). exists rest. split; [exact P|]. split; rewrite Forall_forall in *; intros x Hx.
  - apply IFF; [apply (Permutation_in x (Permutation_sym P)), in_or_app; now left|auto].
  - intros HP. apply (F2 x Hx). apply IFF; [apply (Permutation_in x (Permutation_sym P)), in_or_app; now right|exact HP].
Qed.
Print Assumptions C61_saved.

(** The keys of related objects are what [partners] lists. *)
Lemma related_partners U X U2 X2 json_text resolve (sem : ty -> codec U) s g kw dl conv veq read strict E d t D db (stored : list (Sql.row * @object U (many X))) p :
  deployed json_text resolve sem s g kw dl conv veq read strict E d t -> keeps json_text E conv strict d D db ->
  table_of resolve sem s g D stored -> In p stored ->
  exists k, given_fits json_text t (do_pkcol g) k /\ CodegenSpec.stores sem (snd p) (do_pk g) k
    /\ (forall D0 n owner, related_in sem g E D0 n owner (snd p) <-> exists v, In v (partners E D0 n owner) /\ equal E k v)
    /\ (forall (l : list (@object U2 (many X2))) (sem2 : ty -> codec U2) f ks, Forall2 (fun x v => field_sql sem2 x f = Ok v) l ks ->
          ((exists v, In v ks /\ equal E k v) <-> exists y v, In y l /\ CodegenSpec.stores sem2 y f v /\ equal E k v)).
Proof.
  intros DP KP TO Hp.
  destruct (row_key json_text resolve sem s g kw dl conv veq read strict E d t DP D stored p TO Hp) as (k & F1 & F2).
  exists k. split; [|split; [exact F2|split]].
  - apply (key_kept json_text resolve sem s g kw dl conv veq read strict E d t DP D db (fst p) k KP); [rewrite <- (proj1 TO); now apply in_map|exact F1].
  - intros D0 n owner. split.
    + intros (r0 & y & v & k' & R1 & R2 & R3 & R4 & R5 & R6). rewrite (stores_fun sem _ _ _ _ R5 F2) in R6. exists v. split; [apply partners_equal; eauto 8|exact R6].
    + intros (v & Hv & He). apply partners_equal in Hv as (r0 & y & R1 & R2 & R3 & R4). exists r0, y, v, k. auto 10.
  - intros l sem2 f ks F. split.
    + intros (v & Hv & He). destruct (forall2_in_r _ _ _ _ F Hv) as (y & Hy & Ey). apply field_sql_ok in Ey. eauto.
    + intros (y & v & Hy & Sv & He). destruct (forall2_in_l _ _ _ _ F Hy) as (w & Hw & Ew). apply field_sql_ok in Ew. rewrite (stores_fun sem2 _ _ _ _ Sv Ew) in He. eauto.
Qed.
Lemma exactly_iff U X (P Q : @object U (many X) -> Prop) stored found : (forall x, In x stored -> (P x <-> Q x)) -> exactly_those P stored found -> exactly_those Q stored found.
Proof.
  intros IFF (rest & PM & F1 & F2). exists rest. split; [exact PM|]. split; rewrite Forall_forall in *; intros x Hx.
  - apply IFF; [apply (Permutation_in x (Permutation_sym PM)), in_or_app; now left|auto].
  - intros HP. apply (F2 x Hx). apply IFF; [apply (Permutation_in x (Permutation_sym PM)), in_or_app; now right|exact HP].
Qed.

Lemma owned U json_text resolve (sem : ty -> codec U) s g kw dl conv veq read strict E d t f kv :
  deployed json_text resolve sem s g kw dl conv veq read strict E d t -> In f (relation_fields resolve s) -> given_fits json_text t (do_pkcol g) kv ->
  relation_in d (relation_name (do_table g) f) kv /\ same E kv kv = true /\ reserved dl "owner" = false.
Proof.
  intros DP Hf Kk. assert (Y : same E kv kv = true).
  { unfold same. now rewrite (proj2 (dp_exact _ _ _ _ _ _ _ _ _ _ _ _ _ _ DP kv kv Kk Kk) eq_refl). }
  split; [|split; [exact Y|exact (nm_owner _ _ _ (dp_names _ _ _ _ _ _ _ _ _ _ _ _ _ _ DP))]]. split; [|split; [|split]].
  - pose proof (nm_many _ _ _ (dp_names _ _ _ _ _ _ _ _ _ _ _ _ _ _ DP)) as F. rewrite (relations_eq resolve s g (dp_code _ _ _ _ _ _ _ _ _ _ _ _ _ _ DP)) in F.
    rewrite Forall_forall in F. apply (F (sf_ident f, relation_name (do_table g) f)). apply in_map_iff. exists f. split; [reflexivity|exact Hf].
  - intros ->. destruct (dp_engine _ _ _ _ _ _ _ _ _ _ _ _ _ _ DP) as [_ _ EO _ _]. unfold same, compare3 in Y. rewrite (null_l E EO) in Y. discriminate Y.
  - destruct Kk as (c & _ & _ & ty & _ & _ & _ & NC & _). exact NC.
  - destruct (mi_relations _ _ _ _ _ _ _ (dp_model _ _ _ _ _ _ _ _ _ _ _ _ _ _ DP) f Hf) as (rt & Hrt & RF). exists rt. split; [exact Hrt|exact (proj1 RF)].
Qed.

(** Setting a relation of an object makes it hold exactly the given objects: loading it
    gives the stored objects with the keys of those given.  Other objects are related to
    what they were, and the rest of the database is as it was. *)
Theorem C61_set : forall U U2 X2 json_text resolve (sem : ty -> codec U) s g kw dl conv veq read strict E fresh d t D db db' f kv
    resolve2 (sem2 : ty -> codec U2) valid2 s2 g2 t2 (h h' : many (@object U2 (many X2))) l,
  deployed json_text resolve sem s g kw dl conv veq read strict E d t -> deployed json_text resolve2 sem2 s2 g2 kw dl conv veq read strict E d t2 ->
  In f (relation_fields resolve s) -> relation_to json_text g2 d t2 (relation_name (do_table g) f) -> relation_of json_text g d t (relation_name (do_table g) f) ->
  keeps json_text E conv strict d D db -> given_fits json_text t (do_pkcol g) kv ->
  m_owner h = Some kv -> m_table h = relation_name (do_table g) f ->
  (forall rt x k, In (relation_name (do_table g) f, rt) (a_tables d) -> In x l -> CodegenSpec.stores sem2 x (do_pk g2) k -> given_fits json_text rt "has" k) ->
  many_set_on (sqlite_methods json_text kw dl conv veq read E fresh) (related_model sem2 valid2 g2) h l db = (Ok tt, h', db') ->
  exists D', keeps json_text E conv strict d D' db' /\ (forall n, n <> relation_name (do_table g) f -> D' n = D n)
    /\ (forall kv' (x : @object U2 (many X2)), given_fits json_text t (do_pkcol g) kv' -> kv' <> kv ->
          (related_in sem2 g2 E D' (relation_name (do_table g) f) kv' x <-> related_in sem2 g2 E D (relation_name (do_table g) f) kv' x))
    /\ m_all h' = Some l /\ m_new h' = [] /\ m_removed h' = [] /\ Forall (has_key_set g2 valid2) l
    /\ forall stored (h2 : many (@object U2 (many X2))) order,
       table_of resolve2 sem2 s2 g2 D' stored -> (order <> None -> keys_ordered E (given_fits json_text t2 (do_pkcol g2))) ->
       m_owner h2 = Some kv -> m_table h2 = relation_name (do_table g) f -> m_new h2 = [] -> m_all h2 = None ->
       (exists r h3, sqlite_many_load_answers json_text kw dl E sem2 valid2 g2 h2 order db' r h3)
       /\ forall r h3, sqlite_many_load_answers json_text kw dl E sem2 valid2 g2 h2 order db' r h3 ->
            exists here l', r = Ok l' /\ exactly_those (same_key_in sem2 g2 l) (map snd stored) here
              /\ in_order sem2 g2 E order here /\ all_equal resolve2 s2 here l'.
Proof.
  intros U U2 X2 json_text resolve sem s g kw dl conv veq read strict E fresh d t D db db' f kv resolve2 sem2 valid2 s2 g2 t2 h h' l DP DP2 Hf RT RO KP Kk Ho Ht FL H.
  destruct (mi_relations _ _ _ _ _ _ _ (dp_model _ _ _ _ _ _ _ _ _ _ _ _ _ _ DP) f Hf) as (rt & Hrt & RF).
  destruct (owned _ _ _ _ _ _ _ _ _ _ _ _ _ _ _ f kv DP Hf Kk) as (RI & SS & NO).
  pose proof (dp_exact _ _ _ _ _ _ _ _ _ _ _ _ _ _ DP) as EX. pose proof (dp_exact _ _ _ _ _ _ _ _ _ _ _ _ _ _ DP2) as EX2.
  assert (Nn : relation_name (do_table g) f <> do_table g) by (eapply relation_not_t).
  set (n := relation_name (do_table g) f) in *.
  assert (FL2 : Forall (fun x => forall k, rel_key (related_model (X := X2) sem2 valid2 g2) x = Ok k -> given_fits json_text rt "has" k) l).
  { apply Forall_forall. intros x Hx k Hk. apply field_sql_ok in Hk. exact (FL rt x k Hrt Hx Hk). }
  destruct (many_set_sim json_text resolve sem s g kw dl conv veq read strict E fresh d t DP n rt Hrt RF Nn (related_model sem2 valid2 g2) D db h kv l KP Ho Ht (proj2 (proj2 RF) kv Kk) FL2)
    as (D' & fs & r' & K' & A & HC).
  rewrite H in K', A, HC. cbn [fst snd] in K', A, HC. destruct r' as [[]|e'|]; try contradiction. specialize (HC []). rewrite many_set_on_conn in HC.
  assert (QE : quotes_enough kw dl /\ engine_ok E) by (destruct (dp_engine _ _ _ _ _ _ _ _ _ _ _ _ _ _ DP) as [Q1 _ Q3 _ _]; auto). destruct QE as [QE EO].
  assert (RTB : relation_table D n) by exact (relation_rows json_text conv strict E d D db n kv KP RI).
  pose proof HC as HC'. rewrite <- Ht in RTB.
  apply (C36_set _ _ _ _ _ _ _ h h' l {| w_db := D; w_fate := fs ++ [] |} {| w_db := D'; w_fate := [] |} kv QE EO) in HC';
    [|rewrite Ht; exact (proj1 RI)|exact NO|exact RTB|exact Ho|exact SS]. cbn [w_db] in HC'. rewrite Ht in HC'.
  destruct HC' as ((ks & KS & PM) & OT & DO & N1 & N2 & N3).
  exists D'. split; [exact K'|]. split; [exact DO|]. split; [|split; [exact N3|split; [exact N1|split; [exact N2|split]]]].
  - intros kv' x Kk' NE.
    assert (PE : partners E D' n kv' = partners E D n kv').
    { apply OT.
      - unfold same. destruct (compare3 E CEq kv kv') as [[|]|] eqn:Y; try reflexivity. exfalso. apply NE. symmetry. apply (EX kv kv'); auto.
      - intros row Hr Hh. unfold has_key in *. destruct (field "owner" row) as [y|] eqn:Ey; [|reflexivity].
        assert (Ky : given_fits json_text t (do_pkcol g) y).
        { apply (RO rt Hrt). pose proof (kp_fit _ _ _ _ _ _ _ KP n rt Hrt) as FR. rewrite Forall_forall in FR. destruct (FR row Hr) as (_ & _ & G). rewrite Forall_forall in G. apply (G ("owner"%string, y)).
          clear - Ey. induction row as [|[c w] row IH]; [discriminate|]. cbn in Ey. destruct (String.eqb_spec c "owner"%string) as [->|]; [injection Ey as ->; now left|right; auto]. }
        destruct (compare3 E CEq y kv) as [[|]|] eqn:Y; try discriminate Hh. apply (EX y kv) in Y; auto. subst y.
        destruct (compare3 E CEq kv kv') as [[|]|] eqn:Y; try reflexivity. exfalso. apply NE. symmetry. apply (EX kv kv'); auto. }
    assert (RL : forall D0, related_in sem2 g2 E D0 n kv' x <-> exists k v, CodegenSpec.stores sem2 x (do_pk g2) k /\ In v (partners E D0 n kv') /\ equal E k v).
    { intros D0. split.
      - intros (r0 & y & v & k' & R1 & R2 & R3 & R4 & R5 & R6). exists k', v. split; [exact R5|]. split; [apply partners_equal; eauto 8|exact R6].
      - intros (k & v & Hk & Hv & He). apply partners_equal in Hv as (r0 & y & R1 & R2 & R3 & R4). exists r0, y, v, k. auto 10. }
    rewrite !RL, PE. reflexivity.
  - eapply Forall_impl; [|exact (set_valid _ _ _ _ _ _ _ H)]. cbn [rel_valid related_model]. intros x Hx. unfold obj_key in Hx. unfold has_key_set.
    destruct (obj_get x (sf_ident (do_pk g2))) as [[u|y]|] eqn:Eg; try discriminate Hx. exists u. split; [reflexivity|exact Hx].
  - intros stored h2 order TO KO Ho2 Ht2 Hn2 Ha2.
    assert (RI2 : relation_in d (m_table h2) kv) by now rewrite Ht2.
    destruct (C61_load _ _ _ _ _ valid2 _ _ _ _ _ _ _ _ _ _ _ _ _ _ h2 kv order DP2 K' TO RI2 KO Ho2 Ha2) as [L AA]; [rewrite Hn2; constructor|]. split; [exact L|].
    intros r h3 Hr. destruct (AA r h3 Hr) as (here & nw & l' & -> & _ & EH & OH & EN & AE). rewrite Hn2 in EN. rewrite Ht2 in EH.
    assert (nw = []) as -> by (destruct nw as [|x nw]; [reflexivity|]; destruct EN as (rest & _ & F & _); inversion F as [|? ? (k & v & _ & [] & _)]).
    rewrite app_nil_r in AE. exists here, l'. split; [reflexivity|]. split; [|auto]. eapply exactly_iff; [|exact EH].
    intros x Hx. apply in_map_iff in Hx as (p & <- & Hp).
    destruct (related_partners U2 X2 U2 X2 json_text resolve2 sem2 s2 g2 kw dl conv veq read strict E d t2 D' db' stored p DP2 K' TO Hp) as (k & Kx & Sx & RL & KI).
    rewrite RL. transitivity (exists v, In v ks /\ equal E k v).
    + split; intros (v & Hv & He); exists v; (split; [|exact He]); [apply (Permutation_in _ PM)|apply (Permutation_in _ (Permutation_sym PM))]; exact Hv.
    + rewrite (KI l sem2 (do_pk g2) ks KS). split.
      * intros (y & v & Hy & Sv & He). assert (K2v : given_fits json_text t2 (do_pkcol g2) v) by (apply (RT rt Hrt), (FL rt y v Hrt Hy Sv)). apply (EX2 k v) in He; auto. subst v. exists k. split; [exact Sx|]. eauto.
      * intros (k' & S1 & y & Hy & S2). rewrite (stores_fun sem2 _ _ _ _ S1 Sx) in S2. exists y, k. split; [exact Hy|]. split; [exact S2|]. apply (EX2 k k); auto.
Qed.
Print Assumptions C61_set.

(** Deleting a relation of an object leaves it related to none, and the rest as it was;
    refused, it changes nothing. *)
Theorem C61_delete : forall U U2 X2 json_text resolve (sem : ty -> codec U) s g kw dl conv veq read strict E fresh d t D db db' f kv
    (sem2 : ty -> codec U2) g2 (h h' : many (@object U2 (many X2))) r,
  deployed json_text resolve sem s g kw dl conv veq read strict E d t ->
  In f (relation_fields resolve s) -> relation_of json_text g d t (relation_name (do_table g) f) ->
  keeps json_text E conv strict d D db -> given_fits json_text t (do_pkcol g) kv ->
  m_owner h = Some kv -> m_table h = relation_name (do_table g) f ->
  many_delete_on (sqlite_methods json_text kw dl conv veq read E fresh) h db = (r, h', db') ->
  exists D', keeps json_text E conv strict d D' db' /\ (forall n, n <> relation_name (do_table g) f -> D' n = D n)
    /\ (forall kv' (x : @object U2 (many X2)), given_fits json_text t (do_pkcol g) kv' -> kv' <> kv ->
          (related_in sem2 g2 E D' (relation_name (do_table g) f) kv' x <-> related_in sem2 g2 E D (relation_name (do_table g) f) kv' x))
    /\ match r with
       | Ok _ => (forall x : @object U2 (many X2), ~ related_in sem2 g2 E D' (relation_name (do_table g) f) kv x) /\ m_new h' = [] /\ m_removed h' = [] /\ m_all h' = Some []
       | Err _ => h' = h /\ db' = db
       | Panic => False
       end.
Proof.
  intros U U2 X2 json_text resolve sem s g kw dl conv veq read strict E fresh d t D db db' f kv sem2 g2 h h' r DP Hf RO KP Kk Ho Ht H.
  destruct (mi_relations _ _ _ _ _ _ _ (dp_model _ _ _ _ _ _ _ _ _ _ _ _ _ _ DP) f Hf) as (rt & Hrt & RF).
  destruct (owned _ _ _ _ _ _ _ _ _ _ _ _ _ _ _ f kv DP Hf Kk) as (RI & SS & NO).
  pose proof (dp_exact _ _ _ _ _ _ _ _ _ _ _ _ _ _ DP) as EX.
  set (n := relation_name (do_table g) f) in *.
  destruct (many_delete_sim json_text resolve sem s g kw dl conv veq read strict E fresh d t DP n rt Hrt RF D db h kv KP Ho Ht (proj1 (proj2 (proj2 RI))))
    as (D' & fs & r' & K' & A & HC).
  rewrite H in K', A, HC. cbn [fst snd] in K', A, HC. specialize (HC []). rewrite many_delete_on_conn in HC.
  assert (QE : quotes_enough kw dl /\ engine_ok E) by (destruct (dp_engine _ _ _ _ _ _ _ _ _ _ _ _ _ _ DP) as [Q1 _ Q3 _ _]; auto). destruct QE as [QE EO].
  assert (RTB : relation_table D n) by exact (relation_rows json_text conv strict E d D db n kv KP RI).
  assert (NN : kv <> VNull) by exact (proj1 (proj2 RI)).
  pose proof HC as HC'. rewrite <- Ht in RTB.
  assert (HT : identifier (m_table h) = true) by (rewrite Ht; exact (proj1 RI)).
  apply (C36_delete _ _ _ _ _ _ h h' {| w_db := D; w_fate := fs ++ [] |} {| w_db := D'; w_fate := [] |} kv r' QE EO HT NO RTB Ho NN) in HC'. cbn [w_db] in HC'. rewrite Ht in HC'.
  assert (SAME : forall kv', given_fits json_text t (do_pkcol g) kv' -> kv' <> kv -> forall row, In row (D n) -> has_key E "owner" kv row = true -> has_key E "owner" kv' row = false).
  { intros kv' Kk' NE row Hr Hh. unfold has_key in *. destruct (field "owner" row) as [y|] eqn:Ey; [|reflexivity].
    assert (Ky : given_fits json_text t (do_pkcol g) y).
    { apply (RO rt Hrt). pose proof (kp_fit _ _ _ _ _ _ _ KP n rt Hrt) as FR. rewrite Forall_forall in FR. destruct (FR row Hr) as (_ & _ & G). rewrite Forall_forall in G. apply (G ("owner"%string, y)).
      clear - Ey. induction row as [|[c w] row IH]; [discriminate|]. cbn in Ey. destruct (String.eqb_spec c "owner"%string) as [->|]; [injection Ey as ->; now left|right; auto]. }
    destruct (compare3 E CEq y kv) as [[|]|] eqn:Y; try discriminate Hh. apply (EX y kv) in Y; auto. subst y.
    destruct (compare3 E CEq kv kv') as [[|]|] eqn:Y; try reflexivity. exfalso. apply NE. symmetry. apply (EX kv kv'); auto. }
  assert (RL : forall D0 kv' (x : @object U2 (many X2)), related_in sem2 g2 E D0 n kv' x <-> exists k v, CodegenSpec.stores sem2 x (do_pk g2) k /\ In v (partners E D0 n kv') /\ equal E k v).
  { intros D0 kv' x. split.
    - intros (r0 & y & v & k' & R1 & R2 & R3 & R4 & R5 & R6). exists k', v. split; [exact R5|]. split; [apply partners_equal; eauto 8|exact R6].
    - intros (k & v & Hk & Hv & He). apply partners_equal in Hv as (r0 & y & R1 & R2 & R3 & R4). exists r0, y, v, k. auto 10. }
  destruct r as [u|e|], r' as [u'|e'|]; try contradiction.
  - exists D'. split; [exact K'|]. destruct HC' as (P0 & OT & DO & N1 & N2 & N3). split; [exact DO|]. split; [|split; [|auto]].
    + intros kv' x Kk' NE. rewrite !RL, (OT kv' (SAME kv' Kk' NE)). reflexivity.
    + intros x Y. apply RL in Y as (k & v & _ & Y & _). rewrite P0 in Y. exact Y.
  - exists D. unfold many_delete_on in H. rewrite Ho in H. cbn [on_delete_where sqlite_methods] in H. unfold sqlite_run in H.
    destruct (data_call _ _ _ _ _ _ _ _ _) as [db1|e1|]; try discriminate H. injection H as _ <- <-.
    split; [exact KP|]. split; [reflexivity|]. split; [intros; reflexivity|]. auto.
Qed.
Print Assumptions C61_delete.

(** ** A case: posts that are related to posts *)
Definition rl_schema : ADB :=
  {| a_tables := [("Blog", {| t_name := "Blog"; t_cols := [sv_key] |}); ("posts", sv_table);
                  ("posts_tags_Many", {| t_name := "posts_tags_Many"; t_cols := [col "has" TBigInt; col "owner" TBigInt] |})]; a_types := [] |}%string.
Notation rl_db := sv_db.
Lemma rl_usable : usable rl_schema.
Proof.
  constructor.
  - wf_tac.
  - fine_tac.
  - intros n t c f H Hc (r & Er & ->). cbn in H.
    destruct H as [[= <- <-]|[[= <- <-]|[[= <- <-]|[]]]]; cbn in Hc; repeat (destruct Hc as [<-|Hc]; [try discriminate Er|]); try destruct Hc.
    injection Er as <-. exists {| t_name := "Blog"; t_cols := [sv_key] |}, sv_key. cbn. auto 10.
Qed.
Lemma rl_kept : keeps Some st_engine ex_conv true rl_schema (fun _ => []) (rl_db [] [] []).
Proof.
  constructor.
  - repeat constructor.
  - intros n t H. cbn in H. destruct H as [[= <- <-]|[[= <- <-]|[[= <- <-]|[]]]]; (eexists; split; [reflexivity|]; split; [|intros r []]);
      (split; [reflexivity|]; split; [repeat constructor; cbn; intuition discriminate|]; split; [|split]).
    + intros c [<-|[]]. declared_tac.
    + intros c [<-|[]]. declared_tac.
    + intros f. split; [intros []|]. intros (c & [<-|[]] & (r & Er & _)); discriminate Er.
    + intros c [<-|[<-|[<-|[<-|[]]]]]; declared_tac.
    + intros c [<-|[<-|[<-|[<-|[]]]]]; declared_tac.
    + intros f. split.
      * intros [<-|[]]. exists (sv_opt "blog" TBigInt (Some (RefLiteral {| rl_table := "Blog"; rl_column := "id" |}))). split; [now left|]. eexists. split; reflexivity.
      * intros (c & [<-|[<-|[<-|[<-|[]]]]] & (r & Er & ->)); try discriminate Er. injection Er as <-. now left.
    + intros c [<-|[<-|[]]]; declared_tac.
    + intros c [<-|[<-|[]]]; declared_tac.
    + intros f. split; [intros []|]. intros (c & [<-|[<-|[]]] & (r & Er & _)); discriminate Er.
  - intros n. unfold rl_db. cbn [mget]. repeat (destruct (keqb n _); [cbn; constructor|]). reflexivity.
  - constructor.
  - intros n b H. unfold rl_db in H. cbn [mget] in H. destruct (keqb n "Blog"%string) eqn:E1; [injection H as <-; right; reflexivity|].
    destruct (keqb n "posts"%string) eqn:E2; [left; apply keqb_eq in E2; subst n; exists sv_table; cbn; auto|].
    destruct (keqb n "posts_tags_Many"%string); [injection H as <-; right; reflexivity|discriminate H].
  - constructor; [intros; now destruct i|]. intros n t c f r x _ _ _ [].
Qed.
Lemma rl_deployed : deployed Some table_resolve post_sem post post_code ddl_kw sqlite_like ex_conv st_veq ex_read true st_engine rl_schema sv_table.
Proof.
  destruct C31_case as (H1 & H2 & H3 & H4 & H5 & H6 & H7 & H8). constructor.
  - exact H1.
  - exact H2.
  - apply st_ok.
  - intros z. unfold equal, compare3. cbn. now rewrite Z.compare_refl.
  - apply rl_usable.
  - exact (st_names _ _ _ _ _ _ _ _ _ post_setting).
  - constructor.
    + right. now left.
    + split.
      * intros f Hf. vm_compute in Hf.
        destruct Hf as [<-|[<-|[<-|[<-|[]]]]]; [exists (col "title" TText)|exists sv_key|exists (sv_opt "type" TInt None)|
          exists (sv_opt "blog" TBigInt (Some (RefLiteral {| rl_table := "Blog"; rl_column := "id" |})))];
          (split; [cbn; auto|]); (constructor; [reflexivity|reflexivity|vm_compute; intuition congruence|vm_compute; intuition congruence]).
      * intros c Hc. cbn in Hc. destruct Hc as [<-|[<-|[<-|[<-|[]]]]];
          [exists (nth 3 (row_fields table_resolve post) (do_pk post_code))|exists (nth 1 (row_fields table_resolve post) (do_pk post_code))
          |exists (nth 0 (row_fields table_resolve post) (do_pk post_code))|exists (nth 2 (row_fields table_resolve post) (do_pk post_code))];
          (split; [vm_compute; auto 10|]); (constructor; [reflexivity|reflexivity|vm_compute; intuition congruence|vm_compute; intuition congruence]).
    + intros f Hf. vm_compute in Hf. destruct Hf as [<-|[]]. eexists. split; [right; right; left; reflexivity|]. split; [|split].
      * intros n. split.
        -- intros (c & [<-|[<-|[]]] & <-); cbn; auto.
        -- intros [-> | ->]; unfold has_column; cbn; [exists (col "owner" TBigInt)|exists (col "has" TBigInt)]; auto.
      * intros c [<-|[<-|[]]]; reflexivity.
      * intros v Hv. rewrite H6 in Hv. apply sv_keys in Hv as (z & -> & Hz). exists (col "owner" TBigInt). split; [right; now left|]. split; [reflexivity|].
        exists TBigInt. split; [reflexivity|]. split; [now right|]. split; [cbn; lia|]. split; [intros (? & ? & Y); discriminate Y|]. split; discriminate.
    + intros _. right. reflexivity.
    + intros c [<-|[<-|[<-|[<-|[]]]]]; discriminate.
  - rewrite H6. intros x y Hx Hy. apply sv_keys in Hx as (a & -> & _). apply sv_keys in Hy as (c & -> & _). unfold compare3. cbn.
    destruct (Z.compare_spec a c) as [Hx|Hx|Hx]; split; intros Hy; try congruence; inversion Hy; subst; lia.
Qed.
Lemma rl_numbers : numbers_fit Some st_fresh rl_schema (rl_db [] [] []).
Proof.
  intros n t b c H Hb Hc Ha. exists (VBigInt (st_fresh b)). cbn in H.
  destruct H as [[= <- <-]|[[= <- <-]|[[= <- <-]|[]]]]; vm_compute in Hb; injection Hb as <-; cbn in Hc;
    repeat (destruct Hc as [<-|Hc]; [try discriminate Ha|]); try destruct Hc;
    (split; [|reflexivity]; exists TBigInt; split; [reflexivity|]; split; [now right|]; split; [cbn; lia|]; split; [intros (? & ? & Y); discriminate Y|]; split; discriminate).
Qed.
Lemma rl_fits : forall blog, blog = None \/ blog = Some 3%Z ->
  object_fits Some table_resolve post_sem rv_valid rv_init post post_code rl_schema sv_table (sv_post None "hello" blog many_new).
Proof.
  intros blog Hb. constructor.
  - intros f v Hf Ho (u & Hu & Ht). vm_compute in Hf.
    destruct Hf as [<-|[<-|[<-|[<-|[]]]]].
    + vm_compute in Hu. injection Hu as <-. vm_compute in Ht. injection Ht as <-. exists (col "title" TText). split; [cbn; auto|]. split; [reflexivity|].
      exists TText. repeat split; try discriminate; try (now right). intros (? & ? & Y). discriminate Y.
    + exfalso. destruct (Ho eq_refl eq_refl) as (_ & u2 & Hu2 & Hv2). vm_compute in Hu2. injection Hu2 as <-. discriminate Hv2.
    + vm_compute in Hu. injection Hu as <-. vm_compute in Ht. injection Ht as <-. exists (sv_opt "type" TInt None). split; [cbn; auto|]. split; [reflexivity|].
      exists TInt. split; [reflexivity|]. split; [now left|]. split; [exact Logic.I|]. split; [intros (? & ? & Y); discriminate Y|]. split; [discriminate|auto].
    + exists (sv_opt "blog" TBigInt (Some (RefLiteral {| rl_table := "Blog"; rl_column := "id" |}))). split; [cbn; auto|]. split; [reflexivity|].
      exists TBigInt. split; [reflexivity|]. destruct Hb as [-> | ->]; vm_compute in Hu; injection Hu as <-; vm_compute in Ht; injection Ht as <-.
      * split; [now left|]. split; [exact Logic.I|]. split; [intros (? & ? & Y); discriminate Y|]. split; [discriminate|auto].
      * split; [now right|]. split; [cbn; lia|]. split; [intros (? & ? & Y); discriminate Y|]. split; discriminate.
  - intros u _ Hu _. vm_compute in Hu. injection Hu as <-. intros kv Hk. destruct C31_case as (_ & _ & _ & _ & _ & H6 & _). rewrite H6 in Hk.
    apply sv_keys in Hk as (z & -> & Hz). exists (existT rust (RAutoPk (RInt I64)) (Some z)). split; [|split; reflexivity].
    transitivity (@Ok unit tt, existT rust (RAutoPk (RInt I64)) (Some (wrap I64 z))); [reflexivity|]. rewrite (wrap_id I64 z); [reflexivity|cbn; lia].
  - intros f Hf. vm_compute in Hf. destruct Hf as [<-|[]]. exists many_new. split; [reflexivity|]. split; [now left|]. split; constructor.
Qed.

Notation rl_history := (history Some table_resolve post_sem rv_valid rv_init ddl_kw sqlite_like ex_conv st_veq ex_read st_engine st_fresh rl_schema [hs_model]).
Lemma rl_all : all_deployed Some table_resolve post_sem ddl_kw sqlite_like ex_conv st_veq ex_read true st_engine rl_schema [hs_model].
Proof. intros m [<-|[]]. exact rl_deployed. Qed.
Definition rl_field : sfield := hd (do_pk post_code) (relation_fields table_resolve post).
Lemma rl_in : In rl_field (relation_fields table_resolve post).
Proof. vm_compute. now left. Qed.
Lemma rl_name : relation_name (do_table post_code) rl_field = "posts_tags_Many"%string.
Proof. reflexivity. Qed.
Lemma rl_table rt : In ("posts_tags_Many"%string, rt) (a_tables rl_schema) -> rt = {| t_name := "posts_tags_Many"; t_cols := [col "has" TBigInt; col "owner" TBigInt] |}.
Proof. intros [H|[H|[H|[]]]]; try discriminate H. now injection H. Qed.
Lemma rl_kinds c rt v : In ("posts_tags_Many"%string, rt) (a_tables rl_schema) -> c = "has"%string \/ c = "owner"%string -> given_fits Some rt c v -> given_fits Some sv_table "id" v.
Proof.
  intros H Hc Hv. apply rl_table in H. subst rt. destruct Hv as (k & [<-|[<-|[]]] & E1 & ty & E2 & K1 & V1 & C1 & _ & N1);
    injection E2 as <-; (destruct v; cbn in K1, V1; try (destruct K1 as [K1|K1]; discriminate K1); [destruct (N1 eq_refl) as [X _]; discriminate X|apply ld_key; lia]).
Qed.
(** The field of the first post, before and after it is set. *)
Definition rl_field_of (l : option (list (@object rvalue (many Z)))) : many (@object rvalue (many Z)) :=
  {| m_table := "posts_tags_Many"; m_owner := Some (VBigInt 1); m_otype := TBigInt; m_new := []; m_removed := []; m_all := l |}.

(** Two posts are saved and the first is related to the second: loading the relation anew
    finds the second post, and no other. *)
Example C61_case : exists db kn db', rl_history (sv_db [] [] []) (fun _ _ => Absent) db kn
  /\ kn "posts"%string (VBigInt 1) = Present (ld_saved 1) /\ kn "posts"%string (VBigInt 2) = Present (ld_saved 2)
  /\ many_set_on sv_M (related_model post_sem rv_valid post_code) (rl_field_of None) [ld_saved 2] db = (Ok tt, rl_field_of (Some [ld_saved 2]), db')
  /\ forall r h, sqlite_many_load_answers (X := Z) Some ddl_kw sqlite_like st_engine post_sem rv_valid post_code (rl_field_of None) None db' r h ->
       exists o l, r = Ok (o :: l) /\ Forall (equal_objects table_resolve post (ld_saved 2)) (o :: l).
Proof.
  destruct (learns (U := rvalue) (X := Z) (fun _ _ => Absent) hs_model (VBigInt 1) (Present (ld_saved 1))) as (kn0 & L0).
  destruct (learns kn0 hs_model (VBigInt 2) (Present (ld_saved 2))) as (kn1 & L1).
  assert (HC : sv_save (sv_post None "hello" None many_new) (sv_db [] [] []) = (Ok tt, ld_saved 1, hs_db "hello" [])) by (vm_compute; reflexivity).
  assert (HC2 : exists db2, sv_save (sv_post None "hello" None many_new) (hs_db "hello" []) = (Ok tt, ld_saved 2, db2)
    /\ exists db3, many_set_on sv_M (related_model post_sem rv_valid post_code) (rl_field_of None) [ld_saved 2] db2 = (Ok tt, rl_field_of (Some [ld_saved 2]), db3))
    by (eexists; split; [vm_compute; reflexivity|eexists; vm_compute; reflexivity]).
  destruct HC2 as (db2 & HC2 & db3 & HC3).
  assert (H : rl_history (sv_db [] [] []) (fun _ _ => Absent) db2 kn1).
  { eapply one_more with (m := hs_model); [now left| |].
    { eapply HistorySpec.saved with (o := sv_post None "hello" None many_new) (o' := ld_saved 1); [exact (rl_fits _ (or_introl eq_refl))|exact rl_numbers|exact HC|exact (ld_stores 1)|survive| |exact L0].
      intros (_ & u & Hu & Hv). vm_compute in Hu. injection Hu as <-. discriminate Hv. }
    eapply one_more with (m := hs_model); [now left| |apply no_more].
    eapply HistorySpec.saved with (o := sv_post None "hello" None many_new) (o' := ld_saved 2); [exact (rl_fits _ (or_introl eq_refl))|numbers_tac|exact HC2|exact (ld_stores 2)|survive| |exact L1].
    intros (_ & u & Hu & Hv). vm_compute in Hu. injection Hu as <-. discriminate Hv. }
  assert (P2 : kn1 "posts"%string (VBigInt 2) = Present (ld_saved 2)) by exact (proj1 L1).
  assert (P1 : kn1 "posts"%string (VBigInt 1) = Present (ld_saved 1)) by (rewrite (proj2 L1); [exact (proj1 L0)|right; discriminate]).
  assert (PN : forall k, k <> VBigInt 1 -> k <> VBigInt 2 -> kn1 "posts"%string k = Absent) by (intros k N1 N2; rewrite (proj2 L1), (proj2 L0); auto).
  exists db2, kn1, db3. split; [exact H|]. split; [exact P1|]. split; [exact P2|]. split; [exact HC3|].
  destruct (C60_history_partial _ _ _ _ _ _ _ _ _ _ _ _ _ _ _ _ _ _ _ _ _ hs_model rl_all hs_apart rl_kept (fun _ _ => eq_refl) H (or_introl eq_refl)) as (D & st & KP & TO & KN & _ & _).
  { intros k. cbn [mo_code hs_model]. change (do_table post_code) with "posts"%string.
    destruct (sqlval_dec k (VBigInt 1)) as [->|N1]; [rewrite P1; discriminate|]. destruct (sqlval_dec k (VBigInt 2)) as [->|N2]; [rewrite P2; discriminate|]. rewrite PN; auto; discriminate. }
  cbn [mo_code mo_decl mo_tab hs_model] in *.
  assert (A1 : relation_to Some post_code rl_schema sv_table (relation_name (do_table post_code) rl_field)).
  { intros rt Hrt v Hv. rewrite hs_table_key. exact (rl_kinds "has"%string rt v Hrt (or_introl eq_refl) Hv). }
  assert (A2 : relation_of Some post_code rl_schema sv_table (relation_name (do_table post_code) rl_field)).
  { intros rt Hrt v Hv. rewrite hs_table_key. exact (rl_kinds "owner"%string rt v Hrt (or_intror eq_refl) Hv). }
  assert (A3 : given_fits Some sv_table (do_pkcol post_code) (VBigInt 1)) by (rewrite hs_table_key; exact (ld_key 1 ltac:(lia))).
  assert (A4 : forall rt x k, In (relation_name (do_table post_code) rl_field, rt) (a_tables rl_schema) -> In x [ld_saved 2] -> CodegenSpec.stores post_sem x (do_pk post_code) k -> given_fits Some rt "has" k).
  { intros rt x k Hrt [<-|[]] Hk. apply rl_table in Hrt. subst rt. rewrite (stores_fun post_sem _ _ _ _ Hk (ld_stores 2)). exists (col "has" TBigInt). split; [now left|]. split; [reflexivity|].
    exists TBigInt. split; [reflexivity|]. split; [now right|]. split; [cbn; lia|]. split; [intros (? & ? & Y); discriminate Y|]. split; discriminate. }
  destruct (C61_set _ _ _ _ _ _ _ _ _ _ _ _ _ _ _ st_fresh _ _ D db2 db3 rl_field (VBigInt 1) _ _ rv_valid _ _ _ (rl_field_of None) _ [ld_saved 2] rl_deployed rl_deployed rl_in A1 A2 KP A3 eq_refl eq_refl A4 HC3)
    as (D' & K' & OT & _ & _ & _ & _ & _ & LD).
  - assert (TO' : table_of table_resolve post_sem post post_code D' st) by (destruct TO as [T1 T2]; split; [rewrite OT; [exact T1|discriminate]|exact T2]).
    intros r h Hr. destruct (proj2 (LD st (rl_field_of None) None TO' (fun N => match N eq_refl with end) eq_refl eq_refl eq_refl eq_refl) r h Hr) as (here & l & -> & (rest & PM & F1 & F2) & _ & AE).
    assert (IN : forall x, In x (map snd st) -> same_key_in post_sem post_code [ld_saved 2] x -> x = ld_saved 2).
    { intros x Hx (k & Hk & y & [<-|[]] & Hy). rewrite (stores_fun post_sem _ _ _ _ Hy (ld_stores 2)) in Hk.
      assert (K2 : kn1 (do_table post_code) (VBigInt 2) = Present x) by (apply (KN (VBigInt 2) x); [rewrite hs_table_key; exact (ld_key 2 ltac:(lia))|auto]).
      change (do_table post_code) with "posts"%string in K2. rewrite P2 in K2. now injection K2. }
    assert (AL : Forall (fun x => x = ld_saved 2) here).
    { rewrite Forall_forall in *. intros x Hx. apply IN; [apply (Permutation_in _ (Permutation_sym PM)), in_or_app; now left|auto]. }
    assert (NE : here <> []).
    { intros ->. cbn [app] in PM. assert (Hi : In (ld_saved 2) (map snd st)) by (apply (KN (VBigInt 2) (ld_saved 2)); [rewrite hs_table_key; exact (ld_key 2 ltac:(lia))|exact P2]).
      rewrite Forall_forall in F2. apply (F2 (ld_saved 2)); [apply (Permutation_in _ PM), Hi|]. exists (VBigInt 2). split; [exact (ld_stores 2)|]. exists (ld_saved 2). split; [now left|exact (ld_stores 2)]. }
    clear - AL NE AE. destruct here as [|a here]; [now destruct NE|]. inversion AE as [|? o ? l' EQ A' E1 E2]. subst. exists o, l'. split; [reflexivity|].
    inversion AL as [|? ? -> AL']. subst. constructor; [exact EQ|]. clear - A' AL'. revert AL'. induction A' as [|a b la lb H A' IH]; intros AL; constructor; inversion AL; subst; auto.
Qed.
