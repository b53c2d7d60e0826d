(** Schemas that are the same are migrated in the same way on PostgreSQL. *)
From Verif Require Import Base SqlVal Sql Adb AdbSpec AdbProofs Literal LiteralSpec Ddl DdlSpec Backend BackendSpec SqliteSem
  MigrateSpec MigrateProofs MigrateInv MigrateMain Chain ChainSpec Store StoreSpec FsStore FsSpec Deploy DeploySpec DeploySame PgSem PgSpec PgDeploy PgDeploySpec.

Lemma default_none c c' : same_column c c' -> c_default c = None -> c_default c' = None.
Proof. intros S E. pose proof (sc_default _ _ S) as X. rewrite E in X. destruct (c_default c'); [contradiction|reflexivity]. Qed.
Lemma ref_literal c c' r : same_column c c' -> c_ref c = Some (RefLiteral r) -> c_ref c' = Some (RefLiteral r).
Proof. intros S E. pose proof (sc_ref _ _ S) as X. rewrite E in X. destruct (c_ref c') as [[]|]; cbn in X; try contradiction. now subst. Qed.
Lemma pg_column_fine_same c c' : same_column c c' -> pg_column_fine c -> pg_column_fine c'.
Proof.
  intros S (A & B & C & D & E). pose proof S as []. unfold pg_column_fine, same_type in *. rewrite <- sc_name, <- sc_type, <- sc_auto, <- sc_pk, <- sc_nullable.
  split; [exact A|]. split; [exact B|]. split; [|split; [exact D|]].
  - intros X. destruct (C X) as [Y Z]. split; [exact Y|]. now apply (default_none c).
  - destruct (c_ref c) as [[r|k]|], (c_ref c') as [[r'|k']|]; cbn in sc_ref; try contradiction; auto. now subst.
Qed.
Lemma pg_schema_fine_same a b : same_schema a b -> pg_schema_fine a -> pg_schema_fine b.
Proof.
  intros S F n u Hu. destruct (table_same b a n u (same_schema_sym _ _ S) Hu) as (t & Ht & T).
  destruct (F n t Ht) as (I & NE & C). split; [destruct T as (-> & _); exact I|]. split.
  - intros E. destruct T as (_ & _ & T2). destruct (t_cols t) as [|c r]; [congruence|]. destruct (T2 c (or_introl eq_refl)) as (c' & Hc' & _).
    rewrite E in Hc'. destruct Hc'.
  - apply Forall_forall. intros c Hc. destruct (col_same _ _ _ T Hc) as (c' & Hc' & E). rewrite Forall_forall in C.
    apply (pg_column_fine_same c'); [now apply same_column_sym|now apply C].
Qed.
Lemma pg_known c x : pg_column_fine c -> c_type c <> Deferred x.
Proof. intros (_ & B & _) E. rewrite E in B. exact B. Qed.

(** * The catalogue *)
Section Cat.
Variable kw : string -> bool.
Notation cat := (cat kw).
Lemma pg_words_same c c' : same_column c c' -> pg_words c = pg_words c'.
Proof. intros []. unfold pg_words. unfold same_type in sc_type. now rewrite sc_type. Qed.
Lemma pg_declares_same c c' k : same_column c c' -> pg_declares kw c k -> pg_declares kw c' k.
Proof. intros S (A & B & C & D). unfold pg_declares. rewrite <- (pg_words_same _ _ S). destruct S. rewrite <- sc_name, <- sc_nullable, <- sc_auto. auto. Qed.
Lemma wants_same c c' x : same_column c c' -> wants kw c x -> wants kw c' x.
Proof.
  intros S. destruct x as [y|y|f]; cbn; rewrite ?(sc_name _ _ S), ?(sc_pk _ _ S), ?(sc_unique _ _ S); auto.
  intros (r & E & ->). exists r. split; [now apply (ref_literal c)|]. now rewrite (sc_name _ _ S).
Qed.
Lemma pg_table_is_same t u b : same_table t u -> pg_table_is kw t b -> pg_table_is kw u b.
Proof.
  intros T (A & B & C & D). assert (T' := same_table_sym _ _ T). split; [exact A|]. split; [|split].
  - intros c Hc. destruct (col_same _ _ _ T' Hc) as (c' & Hc' & E). destruct (B c' Hc') as (k & Hk & X). exists k. split; [exact Hk|].
    apply (pg_declares_same c'); [now apply same_column_sym|exact X].
  - intros k Hk. destruct (C k Hk) as (c & Hc & X). destruct (col_same _ _ _ T Hc) as (c' & Hc' & E). exists c'. split; [exact Hc'|]. now apply (pg_declares_same c).
  - intros x. rewrite D. split; intros (c & Hc & W).
    + destruct (col_same _ _ _ T Hc) as (c' & Hc' & E). exists c'. split; [exact Hc'|]. now apply (wants_same c).
    + destruct (col_same _ _ _ T' Hc) as (c' & Hc' & E). exists c'. split; [exact Hc'|]. now apply (wants_same c).
Qed.
Lemma pg_has_same a b db : same_schema a b -> pg_has kw a db -> pg_has kw b db.
Proof.
  intros S H n u Hu. destruct (table_same b a n u (same_schema_sym _ _ S) Hu) as (t & Ht & T). destruct (H n t Ht) as (x & G & X & Y).
  exists x. split; [exact G|]. split; [|exact Y]. apply (pg_table_is_same t); [now apply same_table_sym|exact X].
Qed.
Lemma pg_database_same others a b s : same_schema a b -> pg_database_is kw others a s -> pg_database_is kw others b s.
Proof.
  intros S []. constructor; auto; [now apply (pg_has_same a)|]. intros m N H. apply pi_others; [exact N|].
  intros n Hn. apply H. now rewrite <- (has_table_same a b).
Qed.
End Cat.

(** * The sides of a change *)
Lemma named_any a b x y n c : same_schema a b -> same_schema x y -> named a x n c -> named b y n c.
Proof.
  intros S R (t & H & C). destruct H as [H|H]; [destruct (table_same _ _ _ _ S H) as (u & Hu & T)|destruct (table_same _ _ _ _ R H) as (u & Hu & T)];
    exists u; (split; [now auto|now apply (same_has t u)]).
Qed.
Lemma table_named_any a b x y n : same_schema a b -> same_schema x y -> table_named a x n -> table_named b y n.
Proof. intros S R [H|H]; [left; now rewrite <- (has_table_same a b)|right; now rewrite <- (has_table_same x y)]. Qed.
Lemma changed_any a b x y n c c' : same_schema a b -> same_schema x y -> changed_column a x n c c' ->
  exists d d', changed_column b y n d d' /\ same_column c d /\ same_column c' d'.
Proof.
  intros S R (t & u & Ht & Hu & Hc & Hc' & E & N). destruct (table_same _ _ _ _ S Ht) as (t' & Ht' & T). destruct (table_same _ _ _ _ R Hu) as (u' & Hu' & U).
  destruct (col_same _ _ _ T Hc) as (d & Hd & D). destruct (col_same _ _ _ U Hc') as (d' & Hd' & D'). exists d, d'. split; [|auto].
  exists t', u'. repeat split; auto; [now rewrite <- (sc_name _ _ D), <- (sc_name _ _ D')|].
  intros X. apply N. eapply same_column_trans; [exact D|]. eapply same_column_trans; [exact X|]. now apply same_column_sym.
Qed.
Lemma altered_any a b x y n c : same_schema a b -> same_schema x y -> altered a x n c -> altered b y n c.
Proof.
  intros S R (t & k & Ht & Hk & E & H). destruct (table_same _ _ _ _ S Ht) as (t' & Ht' & T).
  destruct H as [[H1 H2]|(k' & H)].
  - destruct (col_same _ _ _ T Hk) as (d & Hd & D). exists t', d. split; [exact Ht'|]. split; [exact Hd|]. split; [rewrite <- E; symmetry; apply (sc_name _ _ D)|].
    left. split; [|now rewrite <- (has_table_same x y)]. intros X. apply H1. pose proof (sc_ref _ _ D) as Y. rewrite X in Y. destruct (c_ref k); [contradiction|reflexivity].
  - destruct (changed_any a b x y n k k' S R H) as (d & d' & C & D & _). destruct C as (t1 & u1 & Ht1 & C). exists t1, d. split; [exact Ht1|].
    split; [apply C|]. split; [rewrite <- E; symmetry; apply (sc_name _ _ D)|]. right. exists d'. exists t1, u1. auto.
Qed.
Lemma names_clear_any kw a b x y db : same_schema a b -> same_schema x y -> names_clear kw a x db -> names_clear kw b y db.
Proof.
  intros S R []. assert (S' := same_schema_sym _ _ S). assert (R' := same_schema_sym _ _ R).
  assert (N : forall n c, named b y n c -> named a x n c) by (intros; now apply (named_any b a y x)).
  assert (T : forall n, table_named b y n <-> table_named a x n) by (intros; split; [now apply (table_named_any b a y x)|now apply (table_named_any a b x y)]).
  constructor.
  - intros n m H1 H2. apply nc_tables; now apply T.
  - intros n c c' H1 H2. eapply nc_columns; apply N; eauto.
  - intros n c H. apply nc_plain. now apply (altered_any b a y x).
  - intros n c H. apply nc_short. now apply N.
  - intros n c m c' H1 H2. apply nc_distinct; now apply N.
  - intros n c k H E. destruct (nc_free n c k (N _ _ H) E) as [A B]. split.
    + intros m Hm. apply A. now apply T.
    + intros m t G Hk. apply B; [exact G|]. intros j Hj. apply Hk. now apply T.
Qed.
Lemma one_primary_same t u : same_table t u -> NoDup (map c_name (t_cols u)) -> one_primary t -> one_primary u.
Proof.
  intros T ND O c c' Hc Hc' P P'. apply same_table_sym in T. destruct (col_same _ _ _ T Hc) as (d & Hd & D). destruct (col_same _ _ _ T Hc') as (d' & Hd' & D').
  assert (E : d = d') by (apply O; auto; [now rewrite <- (sc_pk _ _ D)|now rewrite <- (sc_pk _ _ D')]). subst d'.
  assert (N : c_name c = c_name c') by (now rewrite (sc_name _ _ D), (sc_name _ _ D')).
  clear - ND N Hc Hc'. induction (t_cols u) as [|x l IH]; [destruct Hc|]. cbn in ND. inversion ND as [|? ? A B]; subst.
  destruct Hc as [->|Hc], Hc' as [->|Hc']; auto; exfalso; apply A; [rewrite N|rewrite <- N]; now apply in_map.
Qed.
Lemma pg_change_any a b x y : same_schema a b -> same_schema x y -> wf_schema b -> wf_schema y -> pg_change a x -> pg_change b y.
Proof.
  intros S R Wb Wy []. assert (S' := same_schema_sym _ _ S). assert (R' := same_schema_sym _ _ R). constructor.
  - intros n t Ht. destruct (table_same _ _ _ _ S' Ht) as (t' & Ht' & T). apply (one_primary_same t'); [now apply same_table_sym|apply (proj2 Wb n t Ht)|eauto].
  - intros n t Ht. destruct (table_same _ _ _ _ R' Ht) as (t' & Ht' & T). apply (one_primary_same t'); [now apply same_table_sym|apply (proj2 Wy n t Ht)|eauto].
  - intros n t u c Ht Hu Hc P. destruct (table_same _ _ _ _ S' Ht) as (t' & Ht' & T). destruct (table_same _ _ _ _ R' Hu) as (u' & Hu' & U).
    destruct (col_same _ _ _ T Hc) as (d & Hd & D). destruct (pc_stays n t' u' d Ht' Hu' Hd) as (e & He & Pe); [now rewrite <- (sc_pk _ _ D)|].
    apply same_table_sym in U. destruct (col_same _ _ _ U He) as (e' & He' & E). exists e'. split; [exact He'|]. now rewrite <- (sc_pk _ _ E).
  - intros n c c' H. destruct (changed_any b a y x n c c' S' R' H) as (d & d' & C & D & D'). rewrite (sc_auto _ _ D), (sc_auto _ _ D'). eauto.
Qed.

(** * Defaults *)
Lemma zeros_col d n t c : plain_zeros d -> In (n, t) (a_tables d) -> In c (t_cols t) -> plain_col c.
Proof. intros P Ht Hc r E. exact (P n t c r Ht Hc E). Qed.
Lemma default_eq c c' : same_column c c' -> plain_col c -> plain_col c' -> c_default c = c_default c'.
Proof.
  intros S P P'. pose proof (sc_default _ _ S) as X. destruct (c_default c) as [v|] eqn:E, (c_default c') as [v'|] eqn:E'; cbn in X; try contradiction; [|reflexivity].
  f_equal. destruct X as (_ & _ & [->|(r & s & -> & -> & Zr & Zs)]); [reflexivity|].
  apply Z.eqb_eq in Zr, Zs. destruct (P r E) as [X| ->]; [contradiction|]. destruct (P' s E') as [X| ->]; [contradiction|]. reflexivity.
Qed.
Lemma added_any a b x y n c : same_schema a b -> same_schema x y -> added_column a x n c -> exists c', added_column b y n c' /\ same_column c c'.
Proof. intros S R H. apply (added_old a b) in H; [|exact S]. now apply (added_new x y). Qed.
Section Defaults.
Variables a b x y : ADB.
Hypothesis S : same_schema a b.
Hypothesis R : same_schema x y.
Hypothesis Fx : pg_schema_fine x.
Hypothesis Zx : plain_zeros x.
Hypothesis Zy : plain_zeros y.
Lemma added_default_any n c : added_column b y n c -> exists c', added_column a x n c' /\ same_column c c' /\ column_default c = column_default c'.
Proof.
  intros A. destruct (added_any b a y x n c (same_schema_sym _ _ S) (same_schema_sym _ _ R) A) as (c' & A' & E). exists c'. split; [exact A'|]. split; [exact E|].
  pose proof (pg_schema_fine_same _ _ R Fx) as Fy. destruct A as (t & u & _ & Hu & Hc & _), A' as (t' & u' & _ & Hu' & Hc' & _).
  assert (Cf : pg_column_fine c) by (destruct (Fy n u Hu) as (_ & _ & X); rewrite Forall_forall in X; now apply X).
  assert (Cf' : pg_column_fine c') by (destruct (Fx n u' Hu') as (_ & _ & X); rewrite Forall_forall in X; now apply X).
  apply same_default; [exact E|exact (zeros_col y n u c Zy Hu Hc)|exact (zeros_col x n u' c' Zx Hu' Hc')|intros k; now apply pg_known|intros k; now apply pg_known].
Qed.
Lemma changed_default_any n c c' : changed_column b y n c c' ->
  exists d d', changed_column a x n d d' /\ same_column c d /\ same_column c' d' /\ c_default c' = c_default d'.
Proof.
  intros H. destruct (changed_any b a y x n c c' (same_schema_sym _ _ S) (same_schema_sym _ _ R) H) as (d & d' & C & D & D'). exists d, d'.
  split; [exact C|]. split; [exact D|]. split; [exact D'|]. destruct H as (t & u & _ & Hu & _ & Hc & _), C as (t' & u' & _ & Hu' & _ & Hc' & _).
  apply default_eq; [exact D'|exact (zeros_col y n u c' Zy Hu Hc)|exact (zeros_col x n u' d' Zx Hu' Hc')].
Qed.
Lemma pg_defaults_any : pg_defaults_fine a x -> pg_defaults_fine b y.
Proof.
  intros [A B]. split.
  - intros n c H. destruct (added_default_any n c H) as (c' & H' & _ & E). unfold default_fine. rewrite E. now apply (A n).
  - intros n c c' v H E. destruct (changed_default_any n c c' H) as (d & d' & C & _ & _ & X). apply (B n d d' v C). now rewrite <- X.
Qed.
Lemma defaults_follow_any kw read db db' : defaults_follow kw read a x db db' -> defaults_follow kw read b y db db'.
Proof.
  intros F n t u c c' Ht Hu Hc Hc' E. assert (S' := same_schema_sym _ _ S). assert (R' := same_schema_sym _ _ R).
  destruct (table_same _ _ _ _ S' Ht) as (t1 & Ht1 & T). destruct (table_same _ _ _ _ R' Hu) as (u1 & Hu1 & U).
  destruct (col_same _ _ _ T Hc) as (d & Hd & D). destruct (col_same _ _ _ U Hc') as (d' & Hd' & D').
  destruct (F n t1 u1 d d' Ht1 Hu1 Hd Hd') as (p & p' & k & k' & G & G' & K & K' & A & B).
  { now rewrite <- (sc_name _ _ D), <- (sc_name _ _ D'). }
  exists p, p', k, k'. rewrite (sc_name _ _ D). split; [exact G|]. split; [exact G'|]. split; [exact K|]. split; [exact K'|].
  assert (X : c_default c' = c_default d') by (apply default_eq; [exact D'|exact (zeros_col y n u c' Zy Hu Hc')|exact (zeros_col x n u1 d' Zx Hu1 Hd')]).
  pose proof (sc_default _ _ D) as Y. split.
  - intros Z. apply A. rewrite <- X. eapply same_opt_trans; [apply sqlval_same_trans| |exact Z]. apply same_opt_sym; [apply sqlval_same_sym|exact Y].
  - intros Z. assert (W : declared_default read d' k').
    { apply B. intros Z'. apply Z. rewrite X. eapply same_opt_trans; [apply sqlval_same_trans|exact Y|exact Z']. }
    unfold declared_default in *. now rewrite X.
Qed.
Lemma pg_migrated_any kw read db db' : pg_migrated kw read a x db db' -> pg_migrated kw read b y db db'.
Proof.
  intros (A & B & C & D). split; [now apply (pg_has_same kw x)|]. split; [|split; [|now apply defaults_follow_any]].
  - intros n H1 H2. apply B; [now rewrite (has_table_same a b)|now rewrite (has_table_same x y)].
  - intros m H. apply C. intros n Hn. apply H. now apply (table_named_any a b x y).
Qed.
Lemma pg_carried_any kw read db db' : pg_carried kw read a x db db' -> pg_carried kw read b y db db'.
Proof. intros (db1 & M & H). exists db1. split; [now apply pg_migrated_any|exact H]. Qed.
End Defaults.
Lemma pg_change_fine_any kw others a b x y : same_schema a b -> same_schema x y -> wf_schema b -> wf_schema y -> plain_zeros y ->
  pg_change_fine kw others a x -> pg_change_fine kw others b y.
Proof.
  intros S R Wb Wy Zy []. constructor; auto.
  - now apply (pg_schema_fine_same a).
  - now apply (pg_schema_fine_same x).
  - now apply (pg_defaults_any a b x y).
  - now apply (pg_change_any a b x y).
  - now apply (names_clear_any kw a b x y).
  - intros n H. apply pf_apart. apply (table_named_any b a y x); auto using same_schema_sym.
  - intros n c k H. apply pf_keys. apply (named_any b a y x); auto using same_schema_sym.
Qed.

(** * Being ready *)
Section Ready.
Variable kw : string -> bool.
Variables a b x y : ADB.
Hypothesis S : same_schema a b.
Hypothesis R : same_schema x y.
Lemma marked_same d e T C mark : (forall c c', same_column c c' -> mark c = mark c') -> same_schema d e -> marked kw d T C mark -> marked kw e T C mark.
Proof.
  intros Hm E (n & t & c & Ht & Hc & A & B & K). destruct (table_same _ _ _ _ E Ht) as (u & Hu & U). destruct (col_same _ _ _ U Hc) as (c' & Hc' & D).
  exists n, u, c'. rewrite <- (sc_name _ _ D), <- (Hm _ _ D). auto.
Qed.
Lemma steady_any T C : steady kw a x T C -> steady kw b y T C.
Proof.
  intros [[A B]|[[A B]|[A B]]].
  - left. split; [apply (marked_same a b)|apply (marked_same x y)]; auto; exact sc_pk.
  - right. left. split; [apply (marked_same a b)|apply (marked_same x y)]; auto; exact sc_unique.
  - right. right. split.
    + intros n Hn. apply A. now rewrite (has_table_same a b).
    + destruct B as [B|B]; [left; apply (marked_same x y); auto; exact sc_pk|right; apply (marked_same x y); auto; exact sc_unique].
Qed.
Lemma elsewhere_any T : elsewhere kw a x T -> elsewhere kw b y T.
Proof. intros H n Hn. apply H. apply (table_named_any b a y x); auto using same_schema_sym. Qed.
End Ready.
Lemma pg_ready_any kw a b x y db : same_schema a b -> same_schema x y -> pg_schema_fine x -> plain_zeros x -> plain_zeros y ->
  pg_ready kw a x db -> pg_ready kw b y db.
Proof.
  intros S R Fx Zx Zy []. assert (S' := same_schema_sym _ _ S). assert (R' := same_schema_sym _ _ R).
  pose proof (steady_any kw a b x y S R) as ST. pose proof (elsewhere_any kw a b x y S R) as EL. constructor.
  - intros n H1 H2. apply pr_absent; [now rewrite (has_table_same x y)|now rewrite (has_table_same a b)].
  - intros n t c r Ht H Hc E. destruct (table_same _ _ _ _ S' Ht) as (t' & Ht' & T). destruct (col_same _ _ _ T Hc) as (d & Hd & D).
    destruct (pr_old_refs n t' d r) as [X|X]; auto; [now rewrite (has_table_same x y)|now apply (ref_literal c)|left|right]; auto.
  - intros n t c r Ht H Hc E. destruct (table_same _ _ _ _ R' Ht) as (t' & Ht' & T). destruct (col_same _ _ _ T Hc) as (d & Hd & D).
    destruct (pr_new_refs n t' d r) as [X|[X Y]]; auto; [now rewrite (has_table_same a b)|now apply (ref_literal c)|left|right]; auto.
  - intros m t f G E Hf. destruct (pr_other_refs m t f G) as [X|X]; auto. apply (elsewhere_any kw b a y x S' R' m E).
  - intros n t c r Ht H Hc E. destruct (table_same _ _ _ _ R' Ht) as (t' & Ht' & T). destruct (col_same _ _ _ T Hc) as (d & Hd & D).
    destruct (pr_first_refs n t' d r) as [X|[X|[X Y]]]; auto; [now rewrite (has_table_same a b)|now apply (ref_literal c)|left|right; left|right; right]; auto.
    + eapply marked_same; [exact sc_pk|exact R|exact X].
    + eapply marked_same; [exact sc_unique|exact R|exact X].
  - intros n c H. destruct (added_default_any a b x y S R Fx Zx Zy n c H) as (c' & H' & E & D). rewrite (sc_auto _ _ E), D. now apply (pr_added n).
  - intros n t c o H P Ht Ho. destruct (added_default_any a b x y S R Fx Zx Zy n c H) as (c' & H' & E & D). destruct (table_same _ _ _ _ S' Ht) as (t' & Ht' & T).
    destruct (col_same _ _ _ T Ho) as (o' & Ho' & O). rewrite (sc_pk _ _ O). apply (pr_added_key n t' c' o'); auto. now rewrite <- (sc_pk _ _ E).
  - intros n c c' H. destruct (changed_default_any a b x y S R Zx Zy n c c' H) as (d & d' & C & D & D' & E). destruct (pr_changed n d d' C) as (X & Y & Z).
    split; [|split].
    + rewrite (sc_auto _ _ D'). intros A. specialize (X A). unfold same_type in *. rewrite (sc_type _ _ D), X. symmetry. apply (sc_type _ _ D').
    + rewrite (sc_pk _ _ D), (sc_nullable _ _ D'). exact Y.
    + intros v Ev. rewrite E in Ev |- *. eapply same_opt_trans; [apply sqlval_same_trans|apply (sc_default _ _ D)|]. now apply (Z v).
Qed.
