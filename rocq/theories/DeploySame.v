(** Schemas that are the same are migrated in the same way. *)
From Verif Require Import Base SqlVal Adb AdbSpec AdbProofs Literal LiteralSpec Ddl DdlSpec Backend BackendSpec SqliteSem
  MigrateSpec MigrateProofs MigrateInv MigrateMain Chain ChainSpec Store StoreSpec FsStore FsSpec Deploy DeploySpec.

Lemma has_table_same a b n : same_schema a b -> has_table a n <-> has_table b n.
Proof.
  intros [S1 S2]. split; intros (t & Ht).
  - destruct (S1 n t Ht) as (u & Hu & _). now exists u.
  - destruct (S2 n t Ht) as (u & Hu & _). now exists u.
Qed.
Lemma table_same a b n t : same_schema a b -> In (n, t) (a_tables a) -> exists u, In (n, u) (a_tables b) /\ same_table t u.
Proof. intros [S _]. apply S. Qed.
Lemma col_same t u c : same_table t u -> In c (t_cols t) -> exists c', In c' (t_cols u) /\ same_column c c'.
Proof. intros (_ & S & _). apply S. Qed.

Lemma realises_same conv strict a b db : same_schema a b -> realises conv strict a db -> realises conv strict b db.
Proof.
  intros S R n u Hu. destruct (table_same b a n u (same_schema_sym _ _ S) Hu) as (t & Ht & T). apply same_table_sym in T.
  destruct (R n t Ht) as (x & G & A & B). exists x. split; [exact G|]. split; [now apply (same_table_is strict t)|now apply (same_rows_are conv strict t)].
Qed.
Lemma added_old a b new n c : same_schema a b -> added_column a new n c -> added_column b new n c.
Proof.
  intros S (t & u & Ht & Hu & Hc & N). destruct (table_same _ _ _ _ S Ht) as (t' & Ht' & T).
  exists t', u. repeat split; auto. intros X. apply N. eapply same_has; [|exact X]. now apply same_table_sym.
Qed.
Lemma added_new a b old n c : same_schema a b -> added_column old a n c -> exists c', added_column old b n c' /\ same_column c c'.
Proof.
  intros S (t & u & Ht & Hu & Hc & N). destruct (table_same _ _ _ _ S Hu) as (u' & Hu' & T).
  destruct (col_same _ _ _ T Hc) as (c' & Hc' & E). exists c'. split; [|exact E]. exists t, u'. repeat split; auto.
  now rewrite <- (sc_name _ _ E).
Qed.
Lemma column_fine_same c c' : same_column c c' -> column_fine c -> column_fine c'.
Proof.
  intros S (A & (t & B & N) & C & D). destruct S. split; [now rewrite <- sc_name|].
  split; [exists t; split; [rewrite <- B; symmetry; exact sc_type|exact N]|]. split; [now rewrite <- sc_auto, <- sc_pk|].
  destruct (c_ref c) as [[r|k]|], (c_ref c') as [[r'|k']|]; cbn in sc_ref; try contradiction; auto. now subst.
Qed.
Lemma schema_fine_same a b : same_schema a b -> schema_fine a -> schema_fine b.
Proof.
  intros S F n u Hu. destruct (table_same b a n u (same_schema_sym _ _ S) Hu) as (t & Ht & T).
  destruct (F n t Ht) as (I & NE & C). split; [destruct T as (-> & _); exact I|]. split.
  - intros E. destruct T as (_ & _ & T2). destruct (t_cols t) as [|c r]; [congruence|]. destruct (T2 c (or_introl eq_refl)) as (c' & Hc' & _).
    rewrite E in Hc'. destruct Hc'.
  - apply Forall_forall. intros c Hc. destruct (col_same _ _ _ T Hc) as (c' & Hc' & E). rewrite Forall_forall in C.
    apply (column_fine_same c'); [now apply same_column_sym|now apply C].
Qed.

(** Columns that agree have the same default, but for the sign of zero. *)
Definition plain_col (c : AColumn) : Prop := forall r, c_default c = Some (VReal r) -> f64_mag r <> 0%Z \/ r = 0%Z.
Lemma exact_plain c : default_exact c -> plain_col c.
Proof. intros E r D. specialize (E (VReal r)). unfold column_default in E. rewrite D in E. now apply E. Qed.
Lemma same_default c c' : same_column c c' -> plain_col c -> plain_col c' -> (forall x, c_type c <> Deferred x) -> (forall x, c_type c' <> Deferred x) ->
  column_default c = column_default c'.
Proof.
  intros S P P' ND ND'. destruct S. unfold column_default.
  destruct (c_default c) as [v|] eqn:E, (c_default c') as [v'|] eqn:E'; cbn in sc_default; try contradiction.
  - f_equal. destruct sc_default as (_ & _ & [->|(r & s & -> & -> & Zr & Zs)]); [reflexivity|].
    apply Z.eqb_eq in Zr, Zs. destruct (P r E) as [X| ->]; [contradiction|]. destruct (P' s E') as [X| ->]; [contradiction|]. reflexivity.
  - rewrite sc_nullable. destruct (c_nullable c'); [reflexivity|].
    assert (T : typeid c = typeid c').
    { unfold typeid. unfold same_type in sc_type. destruct (c_type c), (c_type c'); cbn in sc_type; try congruence;
        try (now destruct (ND k)); try (now destruct (ND' k)). }
    now rewrite T.
Qed.
Lemma fine_known c x : column_fine c -> c_type c <> Deferred x.
Proof. intros (_ & (t & E & _) & _) X. rewrite X in E. discriminate. Qed.
Lemma added_fine old new n c : schema_fine new -> added_column old new n c -> column_fine c.
Proof.
  intros F (t & u & _ & Hu & Hc & _). destruct (F n u Hu) as (_ & _ & C). rewrite Forall_forall in C. now apply C.
Qed.
Lemma added_plain old new n c : plain_zeros new -> added_column old new n c -> plain_col c.
Proof. intros P (t & u & _ & Hu & Hc & _) r D. exact (P n u c r Hu Hc D). Qed.
Lemma added_default a b old n c c' : schema_fine a -> schema_fine b -> plain_zeros a -> added_column old a n c -> added_column old b n c' ->
  default_exact c' -> same_column c c' -> column_default c = column_default c'.
Proof.
  intros Fa Fb Pa Aa Ab X S. apply same_default; [exact S|eapply added_plain; eauto|now apply exact_plain| |]; intros x.
  - apply fine_known. exact (added_fine _ _ _ _ Fa Aa).
  - apply fine_known. exact (added_fine _ _ _ _ Fb Ab).
Qed.

Lemma change_fine_old strict a b new : same_schema a b -> wf_schema a -> change_fine strict b new -> change_fine strict a new.
Proof.
  intros S W []. assert (S' := same_schema_sym _ _ S). constructor; auto.
  - now apply (schema_fine_same b).
  - intros n c A. apply (cf_defaults n). now apply (added_old a).
  - intros n c A. apply (cf_exact n). now apply (added_old a).
  - intros n c A. apply (cf_refs n). now apply (added_old a).
  - now rewrite (has_table_same a b).
  - intros E n c s A. apply (cf_plain E n). now apply (added_old a).
Qed.
Lemma default_exact_same c c' : same_column c c' -> column_default c = column_default c' -> default_exact c' -> default_exact c.
Proof.
  intros S E X d D. rewrite E in D. destruct (X d D) as [A B]. split; [exact A|]. intros ty T. rewrite (same_word _ _ S). now apply B.
Qed.
Lemma change_fine_new strict a b old : same_schema a b -> wf_schema a -> plain_zeros a -> change_fine strict old b -> change_fine strict old a.
Proof.
  intros S W P []. assert (S' := same_schema_sym _ _ S).
  assert (Fa : schema_fine a) by (now apply (schema_fine_same b)).
  assert (D : forall n c, added_column old a n c -> exists c', added_column old b n c' /\ same_column c c' /\ column_default c = column_default c').
  { intros n c A. destruct (added_new a b old n c S A) as (c' & A' & E). exists c'. split; [exact A'|]. split; [exact E|].
    eapply (added_default a b); eauto. }
  constructor; auto.
  - intros n c A. destruct (D n c A) as (c' & A' & E & F). unfold default_fine. rewrite F. now apply (cf_defaults n).
  - intros n c A. destruct (D n c A) as (c' & A' & E & F). apply (default_exact_same c c' E F). now apply (cf_exact n).
  - intros n c A. destruct (D n c A) as (c' & A' & E & F). pose proof (cf_refs n c' A') as R. pose proof (sc_ref _ _ E) as X.
    rewrite R in X. destruct (c_ref c); [contradiction|reflexivity].
  - intros m t c f n Ht Hc R. destruct (table_same _ _ _ _ S Ht) as (u & Hu & T). destruct (col_same _ _ _ T Hc) as (c' & Hc' & E).
    apply (cf_temporary m u c' f n Hu Hc'). now apply (same_refers c).
  - now rewrite (has_table_same a b).
  - intros E n c s A X. destruct (D n c A) as (c' & A' & _ & F). apply (cf_plain E n c' s A'). now rewrite <- F.
Qed.

Lemma migrated_old conv strict a b new db db' : same_schema a b -> migrated conv strict a new db db' -> migrated conv strict b new db db'.
Proof.
  intros S (R & K & N & G & O). assert (S' := same_schema_sym _ _ S). split; [exact R|]. split; [|split; [|split]].
  - intros n t u Ht Hu. destruct (table_same _ _ _ _ S' Ht) as (t' & Ht' & T). destruct (K n t' u Ht' Hu) as (x & x' & A & B & C).
    exists x, x'. split; [exact A|]. split; [exact B|]. unfold rows_kept in *. clear - C T. induction C as [|r r' l l' H C IH]; constructor; [|exact IH].
    intros c Hc. destruct (H c Hc) as (v' & E & F & D). exists v'. split; [exact E|]. split.
    + intros c0 Hc0 E0. destruct (col_same _ _ _ T Hc0) as (c1 & Hc1 & E1). destruct (F c1 Hc1) as (v & A & B & X).
      { now rewrite <- (sc_name _ _ E1). }
      exists v. split; [exact A|]. split; [exact B|]. rewrite (same_word _ _ E1). exact X.
    + intros X. apply D. intros Y. apply X. eapply same_has; [|exact Y]. now apply same_table_sym.
  - intros n H1 H2. apply N; [exact H1|]. now rewrite (has_table_same a b).
  - intros n H1 H2. apply G; [|exact H2]. now rewrite (has_table_same a b).
  - intros n H1 H2. apply O; [|exact H2]. now rewrite (has_table_same a b).
Qed.
Lemma migrated_new conv strict a b old db db' : same_schema a b -> schema_fine a -> plain_zeros a -> change_fine strict old b ->
  migrated conv strict old a db db' -> migrated conv strict old b db db'.
Proof.
  intros S Fa Pa CF (R & K & N & G & O). assert (S' := same_schema_sym _ _ S). split; [now apply (realises_same conv strict a)|]. split; [|split; [|split]].
  - intros n t u Ht Hu. destruct (table_same _ _ _ _ S' Hu) as (u' & Hu' & T). destruct (K n t u' Ht Hu') as (x & x' & A & B & C).
    exists x, x'. split; [exact A|]. split; [exact B|].
    unfold rows_kept in *. clear A B. induction C as [|r r' l l' H C IH]; constructor; [|exact IH].
    intros c Hc. destruct (col_same _ _ _ T Hc) as (c' & Hc' & E). destruct (H c' Hc') as (v' & X & F & D).
    rewrite <- (sc_name _ _ E) in X, F, D. exists v'. split; [exact X|]. split.
    + intros c0 Hc0 E0. destruct (F c0 Hc0 E0) as (v & Y1 & Y2 & Y3). exists v. rewrite (same_word _ _ E). auto.
    + intros Y. destruct (D Y) as (d & D1 & D2). exists d. split; [|exact D2]. rewrite <- D1. symmetry.
      assert (Ab : added_column old b n c) by (exists t, u; auto).
      assert (Aa : added_column old a n c') by (exists t, u'; repeat split; auto; now rewrite <- (sc_name _ _ E)).
      apply (added_default a b old n c' c Fa (cf_new_fine _ _ _ CF) Pa Aa Ab (cf_exact _ _ _ CF n c Ab) (same_column_sym _ _ E)).
  - intros n H1 H2. apply N; [|exact H2]. now rewrite (has_table_same a b).
  - intros n H1 H2. apply G; [exact H1|]. now rewrite (has_table_same a b).
  - intros n H1 H2. apply O; [exact H1|]. now rewrite (has_table_same a b).
Qed.

(** * Being ready *)
Lemma rebuilt_old a b new n : same_schema a b -> rebuilt a new n -> rebuilt b new n.
Proof.
  intros S (t & u & Ht & Hu & H). destruct (table_same _ _ _ _ S Ht) as (t' & Ht' & T). exists t', u. split; [exact Ht'|]. split; [exact Hu|].
  destruct H as [(c & c' & Hc & Hc' & E & N)|(c & Hc & R & N)].
  - left. destruct (col_same _ _ _ T Hc) as (d & Hd & D). exists d, c'. repeat split; auto; [rewrite <- E; symmetry; apply (sc_name _ _ D)|].
    intros X. apply N. eapply same_column_trans; eauto.
  - right. destruct (col_same _ _ _ T Hc) as (d & Hd & D). exists d. split; [exact Hd|]. split.
    + intros X. apply R. pose proof (sc_ref _ _ D) as Y. rewrite X in Y. destruct (c_ref c); [contradiction|reflexivity].
    + now rewrite <- (sc_name _ _ D).
Qed.
Lemma rebuilt_new a b old n : same_schema a b -> rebuilt old a n -> rebuilt old b n.
Proof.
  intros S (t & u & Ht & Hu & H). destruct (table_same _ _ _ _ S Hu) as (u' & Hu' & T). exists t, u'. split; [exact Ht|]. split; [exact Hu'|].
  destruct H as [(c & c' & Hc & Hc' & E & N)|(c & Hc & R & N)].
  - left. destruct (col_same _ _ _ T Hc') as (d & Hd & D). exists c, d. repeat split; auto; [rewrite E; apply (sc_name _ _ D)|].
    intros X. apply N. eapply same_column_trans; [exact X|now apply same_column_sym].
  - right. exists c. split; [exact Hc|]. split; [exact R|]. intros X. apply N. eapply same_has; [|exact X]. now apply same_table_sym.
Qed.
Lemma one_key_same t u : same_table t u -> one_key t -> one_key u.
Proof.
  intros T K c c' Hc Hc' P P'. apply same_table_sym in T. destruct (col_same _ _ _ T Hc) as (d & Hd & D). destruct (col_same _ _ _ T Hc') as (d' & Hd' & D').
  rewrite (sc_name _ _ D), (sc_name _ _ D'). rewrite (sc_pk _ _ D) in P. rewrite (sc_pk _ _ D') in P'. now apply K.
Qed.
Lemma key_of_same a b n c : same_schema a b -> key_of a n c -> key_of b n c.
Proof.
  intros S (t & k & Ht & Hk & E & P). destruct (table_same _ _ _ _ S Ht) as (u & Hu & T). destruct (col_same _ _ _ T Hk) as (k' & Hk' & K).
  exists u, k'. repeat split; auto; [rewrite <- E; symmetry; apply (sc_name _ _ K)|]. rewrite <- (sc_pk _ _ K), <- (sc_unique _ _ K). exact P.
Qed.
Lemma fits_same conv veq strict db b c c' : same_column c c' -> fits conv veq strict db b c -> fits conv veq strict db b c'.
Proof.
  intros S (vs & A & B & C & D). exists vs. rewrite <- (sc_name _ _ S), <- (same_word _ _ S), <- (sc_nullable _ _ S), <- (sc_pk _ _ S), <- (sc_unique _ _ S).
  repeat split; auto. intros f R. apply D. apply (same_refers c'); [now apply same_column_sym|exact R].
Qed.
Lemma ready_old conv veq strict a b new db : same_schema a b -> ready conv veq strict b new db -> ready conv veq strict a new db.
Proof.
  intros S []. assert (S' := same_schema_sym _ _ S). pose proof (has_table_same a b) as HT. constructor.
  - intros n H1 H2. apply rd_free; [exact H1|]. now rewrite <- (HT n S).
  - intros n H. destruct (rd_temporary n) as (A & B & C); [now apply (rebuilt_old a)|]. split; [exact A|]. split; [|exact C]. now rewrite (HT _ S).
  - exact rd_key.
  - intros n t u c c' Ht Hu Hc Hc' P P'. destruct (table_same _ _ _ _ S Ht) as (t' & Ht' & T). destruct (col_same _ _ _ T Hc) as (d & Hd & D).
    rewrite (sc_name _ _ D). apply (rd_key_stays n t' u d c' Ht' Hu Hd Hc'); [now rewrite <- (sc_pk _ _ D)|exact P'].
  - intros n t Ht. destruct (table_same _ _ _ _ S Ht) as (t' & Ht' & T). apply (one_key_same t'); [now apply same_table_sym|]. now apply (rd_old_key n).
  - intros n c A. apply (rd_added n). now apply (added_old a).
  - intros n t u c Ht Hu Hc N R. destruct (table_same _ _ _ _ S Ht) as (t' & Ht' & T). destruct (col_same _ _ _ T Hc) as (d & Hd & D).
    rewrite (sc_pk _ _ D), (sc_unique _ _ D). apply (rd_removed n t' u d Ht' Hu Hd); [now rewrite <- (sc_name _ _ D)|].
    pose proof (sc_ref _ _ D) as Y. rewrite R in Y. destruct (c_ref d); [contradiction|reflexivity].
  - intros n H1 H2. apply rd_dropped; [now rewrite <- (HT n S)|exact H2].
  - intros n m x f r v H. apply rd_rebuilt. now apply (rebuilt_old a).
  - intros n m t u x c f r v H Ht Hu. destruct (table_same _ _ _ _ S Ht) as (t' & Ht' & T). apply (rd_rebuilt_new n m t' u); auto. now apply (rebuilt_old a).
  - intros n t u c f H Ht Hu Hc R. destruct (table_same _ _ _ _ S Ht) as (t' & Ht' & T).
    assert (X : exists c', (In c' (t_cols t') \/ In c' (t_cols u)) /\ refers c' f).
    { destruct Hc as [Hc|Hc]; [|eauto]. destruct (col_same _ _ _ T Hc) as (d & Hd & D). exists d. split; [auto|]. now apply (same_refers c). }
    destruct X as (c' & Hc' & R'). destruct (rd_parents n t' u c' f) as (A & B); auto; [now apply (rebuilt_old a)|]. split; [exact A|].
    intros X. apply (key_of_same b a _ _ S'). apply B. now rewrite <- (HT _ S).
  - intros n t u x c H Ht Hu G Hc. destruct (table_same _ _ _ _ S Ht) as (t' & Ht' & T).
    destruct Hc as [Hc|[Hc X]].
    + destruct (col_same _ _ _ T Hc) as (d & Hd & D). apply (fits_same _ _ _ _ _ d); [now apply same_column_sym|].
      apply (rd_fits n t' u x d); auto. now apply (rebuilt_old a).
    + apply (rd_fits n t' u x c); auto; [now apply (rebuilt_old a)|]. right. split; [exact Hc|]. eapply same_has; eauto.
Qed.
Lemma ready_new conv veq strict a b old db : same_schema a b -> schema_fine a -> plain_zeros a -> change_fine strict old b ->
  ready conv veq strict old b db -> ready conv veq strict old a db.
Proof.
  intros S Fa Pa CF []. assert (S' := same_schema_sym _ _ S). pose proof (has_table_same a b) as HT. constructor.
  - intros n H1 H2. apply rd_free; [|exact H2]. now rewrite <- (HT n S).
  - intros n H. destruct (rd_temporary n) as (A & B & C); [now apply (rebuilt_new a)|]. split; [exact A|]. split; [exact B|]. now rewrite (HT _ S).
  - intros n u Hu. destruct (table_same _ _ _ _ S Hu) as (u' & Hu' & T). apply (one_key_same u'); [now apply same_table_sym|]. now apply (rd_key n).
  - intros n t u c c' Ht Hu Hc Hc' P P'. destruct (table_same _ _ _ _ S Hu) as (u' & Hu' & T). destruct (col_same _ _ _ T Hc') as (d & Hd & D).
    rewrite (sc_name _ _ D). apply (rd_key_stays n t u' c d Ht Hu' Hc Hd P). now rewrite <- (sc_pk _ _ D).
  - exact rd_old_key.
  - intros n c A. destruct (added_new a b old n c S A) as (c' & A' & E). destruct (rd_added n c' A') as (X & Y & Z).
    rewrite (sc_pk _ _ E), (sc_unique _ _ E), (sc_nullable _ _ E). split; [exact X|]. split; [exact Y|].
    assert (D : column_default c = column_default c').
    { eapply (added_default a b); eauto; [apply (cf_new_fine _ _ _ CF)|now apply (cf_exact _ _ _ CF n)]. }
    now rewrite D.
  - intros n t u c Ht Hu Hc N R. destruct (table_same _ _ _ _ S Hu) as (u' & Hu' & T). apply (rd_removed n t u' c); auto.
    intros X. apply N. eapply same_has; [|exact X]. now apply same_table_sym.
  - intros n H1 H2. apply rd_dropped; [exact H1|now rewrite <- (HT n S)].
  - intros n m x f r v H. apply rd_rebuilt. now apply (rebuilt_new a).
  - intros n m t u x c f r v H Ht Hu Hc R F G Hr Hv. destruct (table_same _ _ _ _ S Hu) as (u' & Hu' & T). destruct (col_same _ _ _ T Hc) as (d & Hd & D).
    apply (rd_rebuilt_new n m t u' x d f r v); auto; [now apply (rebuilt_new a)|now apply (same_refers c)|now rewrite <- (sc_name _ _ D)].
  - intros n t u c f H Ht Hu Hc R. destruct (table_same _ _ _ _ S Hu) as (u' & Hu' & T).
    assert (X : exists c', (In c' (t_cols t) \/ In c' (t_cols u')) /\ refers c' f).
    { destruct Hc as [Hc|Hc]; [eauto|]. destruct (col_same _ _ _ T Hc) as (d & Hd & D). exists d. split; [auto|]. now apply (same_refers c). }
    destruct X as (c' & Hc' & R'). destruct (rd_parents n t u' c' f) as (A & B); auto; [now apply (rebuilt_new a)|]. split; [|exact B].
    now apply (key_of_same b a).
  - intros n t u x c H Ht Hu G Hc. destruct (table_same _ _ _ _ S Hu) as (u' & Hu' & T).
    destruct Hc as [Hc|[Hc X]].
    + apply (rd_fits n t u' x c); auto. now apply (rebuilt_new a).
    + destruct (col_same _ _ _ T Hc) as (d & Hd & D). apply (fits_same _ _ _ _ _ d); [now apply same_column_sym|].
      apply (rd_fits n t u' x d); auto; [now apply (rebuilt_new a)|]. right. split; [exact Hd|]. now rewrite <- (sc_name _ _ D).
Qed.
