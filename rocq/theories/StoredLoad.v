(** What is loaded from a database that keeps the rows. *)
From Coq Require Import Permutation Sorted.
From Verif Require Import Base SqlVal Sql SqlStmt Query QuerySpec Stmt StmtSpec Adb AdbSpec LiteralSpec Ddl DdlSpec
  Backend BackendSpec BackendProofs Turso SqliteSem MigrateSpec SqliteData DataCalls StoredSpec RenderProofs
  StmtMain StoredRel MigrateProofs StoredProofs StoredMain.

Section Load.
Variable json_text : string -> option string.
Variable E : engine.
Variable veq : lvalue -> lvalue -> bool.
Hypothesis CS : compares_stored E veq.

Lemma alike_sym v w : alike v w -> alike w v.
Proof. intros (l & A & B). now exists l. Qed.
Lemma Forall2_sym {A} (R : A -> A -> Prop) l m : (forall a b, R a b -> R b a) -> Forall2 R l m -> Forall2 R m l.
Proof. intros S. induction 1; constructor; auto. Qed.
Lemma rel_sym r x : rel r x -> rel x r.
Proof. apply Forall2_sym. intros p q [A B]. split; [now symmetry|now apply alike_sym]. Qed.
Lemma dbs_sym D D' : dbs D D' -> dbs D' D.
Proof. intros H n. apply Forall2_sym; [apply rel_sym|apply H]. Qed.

Lemma row_le_rel os : forall a b x y, rel a x -> rel b y -> row_le E os a b -> row_le E os x y.
Proof.
  induction os as [|o os IH]; intros a b x y A B H; [exact I|]. cbn [row_le] in *. destruct H as (v & w & Fv & Fw & K).
  pose proof (field_rel (ord_column o) a x A) as X. pose proof (field_rel (ord_column o) b y B) as Y. rewrite Fv in X. rewrite Fw in Y.
  destruct (field (ord_column o) x) as [v'|]; [|destruct X]. destruct (field (ord_column o) y) as [w'|]; [|destruct Y]. cbn in X, Y.
  exists v', w'. split; [reflexivity|]. split; [reflexivity|].
  assert (O1 : e_ord E v' w' = e_ord E v w) by (rewrite (cs_ord E veq CS v' w'), (cs_ord E veq CS v w); now rewrite (alike_bound _ _ X), (alike_bound _ _ Y)).
  assert (O2 : e_ord E w' v' = e_ord E w v) by (rewrite (cs_ord E veq CS w' v'), (cs_ord E veq CS w v); now rewrite (alike_bound _ _ X), (alike_bound _ _ Y)).
  rewrite O1, O2. cbv zeta in *. destruct K as [K|[K1 K2]]; [now left|right]. split; [assumption|]. now apply (IH a b).
Qed.
Lemma sorted_rel os l m : Forall2 rel l m -> StronglySorted (row_le E os) l -> StronglySorted (row_le E os) m.
Proof.
  induction 1 as [|a x l m A F IH]; intros S; [constructor|]. inversion S as [|? ? S1 S2]; subst. constructor; [now apply IH|].
  clear -A F S2 CS. induction F as [|b y l m B F IH]; [constructor|]. inversion S2; subst. constructor; [|now apply IH]. now apply (row_le_rel os a b).
Qed.
Lemma firstn_rel {A B} (R : A -> B -> Prop) n : forall l m, Forall2 R l m -> Forall2 R (firstn n l) (firstn n m).
Proof. induction n as [|n IH]; intros l m F; [constructor|]. destruct F; cbn; constructor; auto. Qed.
Lemma skipn_rel {A B} (R : A -> B -> Prop) n : forall l m, Forall2 R l m -> Forall2 R (skipn n l) (skipn n m).
Proof. induction n as [|n IH]; intros l m F; [exact F|]. destruct F; cbn; [constructor|auto]. Qed.
Lemma columns_rel cols r x : rel r x -> opt_rel (Forall2 alike) (columns_of cols r) (columns_of cols x).
Proof.
  intros R. unfold columns_of. apply all_some_rel. induction cols as [|c cols IH]; [constructor|]. cbn. constructor; [now apply field_rel|exact IH].
Qed.
Lemma returns_rel D D' x lim cols rs : dbs D D' -> returns E D x lim cols rs ->
  exists out, returns E D' x lim cols out /\ Forall2 (Forall2 alike) rs out.
Proof.
  intros HD (sorted & P & S & A).
  assert (F : Forall2 rel (filter (row_matches E D (q_table x) (q_filter x)) (D (q_table x))) (filter (row_matches E D' (q_table x) (q_filter x)) (D' (q_table x)))).
  { apply filter_rel; [|apply HD]. intros r y R. now apply (matches_rel E veq CS). }
  destruct (Permutation_Forall2 P F) as (sorted' & P' & F').
  assert (G : Forall2 rel (take lim (StmtSpec.drop (q_offset x) sorted)) (take lim (StmtSpec.drop (q_offset x) sorted'))).
  { unfold take, StmtSpec.drop. destruct lim, (q_offset x); try apply firstn_rel; try apply skipn_rel; assumption. }
  pose proof (all_some_rel (Forall2 alike) _ _ (Forall2_map_both rel (opt_rel (Forall2 alike)) (columns_of cols) (columns_of cols) _ _ (columns_rel cols) G)) as O.
  rewrite A in O. destruct (all_some (map (columns_of cols) (take lim (StmtSpec.drop (q_offset x) sorted')))) as [out|] eqn:Eo; [|destruct O].
  exists out. split; [|exact O]. exists sorted'. split; [assumption|]. split; [|assumption]. now apply (sorted_rel (q_sort x) sorted).
Qed.
Lemma all_some_from {A B} (f : A -> option B) l out : all_some (map f l) = Some out -> Forall (fun b => exists a, In a l /\ f a = Some b) out.
Proof.
  revert out. induction l as [|a l IH]; intros out H; [injection H as <-; constructor|]. cbn in H.
  destruct (f a) as [b|] eqn:Ea; [|discriminate]. cbn in H. destruct (all_some (map f l)) as [o|] eqn:Eo; [|discriminate]. injection H as <-.
  constructor; [exists a; split; [now left|assumption]|]. specialize (IH o eq_refl). eapply Forall_impl; [|exact IH]. intros b' (a' & H1 & H2). exists a'. split; [now right|assumption].
Qed.
Lemma In_take {A} n (l : list A) a : In a (take n l) -> In a l.
Proof. unfold take. destruct n; [|auto]. intros H. rewrite <- (firstn_skipn (Z.to_nat z) l). apply in_or_app. now left. Qed.
Lemma In_drop {A} n (l : list A) a : In a (StmtSpec.drop n l) -> In a l.
Proof. unfold StmtSpec.drop. destruct n; [|auto]. intros H. rewrite <- (firstn_skipn (Z.to_nat z) l). apply in_or_app. now right. Qed.
Lemma returns_from D x lim cols rs : returns E D x lim cols rs ->
  Forall (fun vs => exists r, In r (D (q_table x)) /\ columns_of cols r = Some vs) rs.
Proof.
  intros (sorted & P & _ & A). apply all_some_from in A. eapply Forall_impl; [|exact A]. intros vs (r & Hr & Er). exists r. split; [|assumption].
  apply In_take, In_drop in Hr. apply (Permutation_in _ (Permutation_sym P)) in Hr. now apply filter_In in Hr.
Qed.

Lemma read_back t r cols tys : wf_table t -> row_fits json_text t r -> Forall2 (kind_is t) cols tys ->
  forall vs ws, columns_of cols r = Some vs -> Forall2 alike vs ws -> read_row json_text tys ws = Ok vs.
Proof.
  intros WT (N1 & N2 & N3) K. induction K as [|n ty cols tys (c & Hc & Nc & Tc) K IH]; intros vs ws Cv AL.
  - injection Cv as <-. inversion AL; subst. reflexivity.
  - unfold columns_of in Cv. cbn in Cv. destruct (field n r) as [v|] eqn:Fv; [|discriminate]. cbn in Cv.
    destruct (all_some (map (fun c => field c r) cols)) as [vs'|] eqn:Ev; [|discriminate]. injection Cv as <-.
    inversion AL as [|? w ? ws' Aw AL' ]; subst. unfold read_row. cbn [combine collect_all fst snd].
    destruct Aw as (l & W1 & W2). rewrite W2. cbn [obind].
    rewrite Forall_forall in N3. destruct (N3 _ (field_pair _ _ _ Fv)) as (c' & Hc' & Nc' & (ty' & T' & OK & VO & NC & RE & _)). cbn [fst snd] in *.
    assert (Ec : c' = c). { clear -WT Hc Hc' Nc'. destruct WT as [ND _]. induction (t_cols t) as [|a cs IH]; [destruct Hc|]. cbn in ND. inversion ND as [|? ? M1 M2]; subst.
      destruct Hc as [->|Hc], Hc' as [->|Hc']; auto; exfalso; apply M1; [rewrite <- Nc'|rewrite Nc']; now apply in_map. }
    subst c'. rewrite Tc in T'. injection T' as <-.
    assert (NN : ~ sqlval_nan v). { intros (r0 & -> & Hr). rewrite (f64_finite_not_nan r0 (RE r0 eq_refl)) in Hr. discriminate Hr. }
    destruct (sqlite_roundtrip json_text v ty VO OK NC NN) as (y & Y1 & Y2). rewrite W1 in Y1. injection Y1 as <-.
    assert (KL : sqlite_keeps l = l). { clear -RE W1. destruct v; cbn in W1; try discriminate W1; injection W1 as <-; try reflexivity. cbn. now rewrite (f64_finite_not_nan _ (RE _ eq_refl)). }
    rewrite KL in Y2. rewrite Y2. cbn [obind]. unfold read_row in IH. rewrite (IH vs' ws'); [reflexivity|assumption|assumption].
Qed.
Lemma read_all t cols tys : wf_table t -> Forall2 (kind_is t) cols tys ->
  forall rs out, Forall (fun vs => exists r, row_fits json_text t r /\ columns_of cols r = Some vs) rs ->
  Forall2 (Forall2 alike) rs out -> collect_all (read_row json_text tys) out = Ok rs.
Proof.
  intros WT K rs out F A. induction A as [|vs ws rs out A1 A IH]; [reflexivity|]. inversion F as [|? ? (r & Fr & Cr) F2]; subst.
  cbn [collect_all]. rewrite (read_back t r cols tys WT Fr K vs ws Cr A1). cbn [obind]. now rewrite IH.
Qed.

Theorem load_correct kw dl conv strict d D db t x lim cols tys : engine_ok E -> quotes_enough kw dl -> wf_schema d ->
  keeps json_text E conv strict d D db -> In (q_table x, t) (a_tables d) -> Forall2 (kind_is t) cols tys ->
  query_names_ok dl x cols -> nonneg lim -> nonneg (q_offset x) ->
  filter_ok E D (q_table x) (q_filter x) -> StmtSpec.fits Sqlite x lim D ->
  exists s sel, fetch_text kw unit q_next tt true cols x lim = Ok (s, query_values x) /\ parse_stmt dl s = Some (Select sel)
  /\ (forall out, select_returns dl E (shown_db db) (query_values x) sel out ->
        exists rs, collect_all (read_row json_text tys) out = Ok rs /\ returns E D x lim cols rs)
  /\ (forall rs, returns E D x lim cols rs ->
        exists out, select_returns dl E (shown_db db) (query_values x) sel out /\ collect_all (read_row json_text tys) out = Ok rs).
Proof.
  intros EO KW WF KP Ht K Q Hl Ho FO FT.
  destruct (fetch_correct dl kw KW Sqlite cols x lim Q I I Hl Ho) as (s & sel & Es & Ep & H). exists s, sel. split; [exact Es|]. split; [exact Ep|].
  pose proof (shown_dbs D db (kp_rows _ _ _ _ _ _ _ KP)) as SH.
  assert (FT' : StmtSpec.fits Sqlite x lim (shown_db db)).
  { intros A B. cbn in FT. rewrite (Forall2_len _ _ _ (SH (q_table x))). auto. }
  specialize (H E (shown_db db) EO (filter_ok_rel E veq CS D (shown_db db) _ _ SH FO) FT').
  destruct WF as [_ W]. destruct (W _ _ Ht) as [_ WT].
  assert (RD : forall rs out, returns E D x lim cols rs -> Forall2 (Forall2 alike) rs out -> collect_all (read_row json_text tys) out = Ok rs).
  { intros rs out R A. apply (read_all t cols tys WT K); [|assumption]. apply returns_from in R. eapply Forall_impl; [|exact R].
    intros vs (r & Hr & Er). exists r. split; [|assumption]. pose proof (kp_fit _ _ _ _ _ _ _ KP _ _ Ht) as F. rewrite Forall_forall in F. now apply F. }
  split.
  - intros out R. apply H in R. destruct (returns_rel _ D x lim cols out (dbs_sym _ _ SH) R) as (rs & R' & A). exists rs. split; [|assumption].
    apply RD; [assumption|]. apply Forall2_sym; [|assumption]. intros a b. apply Forall2_sym. apply alike_sym.
  - intros rs R. destruct (returns_rel D (shown_db db) x lim cols rs SH R) as (out & R' & A). exists out. split; [now apply H|]. now apply RD.
Qed.
End Load.
