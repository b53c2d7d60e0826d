(** On Turso objects are saved, got, queried and deleted as on SQLite. *)
From Coq Require Import Permutation.
From Verif Require Import Base SqlVal Adb AdbSpec Sql SqlStmt Query QuerySpec Stmt StmtSpec LiteralSpec Ddl DdlSpec
  Backend BackendSpec BackendProofs Turso TursoSpec TursoProofs SqliteSem MigrateSpec SqliteData SqliteKey DataCalls KeyCall StoredSpec StoredRel MigrateProofs
  ParseProofs RenderProofs TokProofs StmtSem StmtProofs UpsertProofs StmtMain StoredProofs StoredMain StoredLoad
  Conn ConnProofs Many ManyProofs Codegen CodegenSpec CodegenProofs Props_Models Obj ObjSpec ObjProofs Props_Key Saved SavedSpec SavedProofs
  Loaded LoadedSpec LoadedProofs Props_Loaded Related RelatedSpec RelatedProofs Props_Related Props_Turso TursoSaved TursoSavedSpec.

(** * Parameters *)
Definition lt (l : lvalue) : tvalue :=
  match l with LNull => TvNull | LInteger i => TvInteger i | LReal r => TvReal r | LText s => TvText s | LBlob b => TvBlob b end.
Lemma writes_same v : sqlval_to_turso v = omap lt (sqlite_write v).
Proof. destruct v; reflexivity. Qed.
Lemma collects_same vs : collect_all sqlval_to_turso vs = omap (map lt) (collect_all sqlite_write vs).
Proof.
  induction vs as [|v vs IH]; [reflexivity|]. cbn [collect_all]. rewrite writes_same, IH.
  destruct (sqlite_write v); cbn; try reflexivity. destruct (collect_all sqlite_write vs); reflexivity.
Qed.
Lemma reads_same json_text l ty v : sqlite_read json_text l ty = Ok v -> turso_value_to_sqlval_typed json_text (lt l) ty = Ok v.
Proof. destruct l, ty; cbn; try discriminate; auto. Qed.
Lemma stored_lt v l : sqlite_write v = Ok l <-> stored v (lt l).
Proof.
  rewrite <- to_turso_stored, writes_same. destruct (sqlite_write v) as [l'|e|]; cbn; [|split; discriminate|split; discriminate].
  split; [intros [= <-]; reflexivity|]. intros H. f_equal. destruct l, l'; cbn in H; congruence.
Qed.
Lemma stored_is v u : stored v u -> exists l, sqlite_write v = Ok l /\ u = lt l.
Proof.
  intros H. apply to_turso_stored in H. rewrite writes_same in H. destruct (sqlite_write v) as [l|e|]; cbn in H; try discriminate.
  exists l. split; [reflexivity|congruence].
Qed.

(** * Texts *)
Section Texts.
Variable dl : dialect.
Variable kw : string -> bool.
Hypothesis KW : quotes_enough kw dl.
Notation nosel ts := (filter (is_kw "SELECT") ts = []).

Lemma no_select s ts : tokens s = ts -> nosel ts -> has_select s = false.
Proof.
  intros <- H. unfold has_select. destruct (existsb (is_kw "SELECT") (tokens s)) eqn:Ex; [|reflexivity].
  apply existsb_exists in Ex as (x & Hx & Ex). assert (In x (filter (is_kw "SELECT") (tokens s))) as F by now apply filter_In.
  rewrite H in F. destruct F.
Qed.
Lemma nosel_cols cols : nosel (commas (map (fun c => [qtok kw c]) cols)).
Proof. apply nosel_commas, Forall_forall. intros ts H. apply in_map_iff in H as (c & <- & _). apply (nosel_q dl kw KW). Qed.
Lemma nosel_ps (l : list nat) : nosel (commas (map (fun j => [ptok j]) l)).
Proof. apply nosel_commas, Forall_forall. intros ts H. apply in_map_iff in H as (c & <- & _). reflexivity. Qed.
Lemma nosel_cons t ts : nosel [t] -> nosel ts -> nosel (t :: ts).
Proof. apply (nosel_app [t]). Qed.

Lemma insert_plain t cols s : identifier t = true -> Forall (fun c => identifier c = true) cols -> insert_sql Sqlite kw t cols = Ok s -> has_select s = false.
Proof.
  intros Ht Fc H. destruct (insert_tokens kw Sqlite t cols Ht Fc I) as (s' & Es & Et & _). rewrite H in Es. injection Es as <-.
  apply (no_select _ _ Et). unfold insert_toks. do 2 (apply nosel_cons; [reflexivity|]). apply nosel_cons; [apply (nosel_q dl kw KW)|].
  destruct cols as [|c cols]; [reflexivity|]. apply nosel_cons; [reflexivity|]. apply nosel_app; [apply nosel_cols|].
  do 3 (apply nosel_cons; [reflexivity|]). apply nosel_app; [apply nosel_ps|reflexivity].
Qed.
Lemma update_plain t pk cols s : identifier t = true -> identifier pk = true -> cols <> [] -> Forall (fun c => identifier c = true) cols ->
  update_sql Sqlite kw t pk cols = Ok s -> has_select s = false.
Proof.
  intros Ht Hp NE Fc H. destruct (update_tokens kw Sqlite t pk cols Ht Hp NE Fc I) as (s' & Es & Et & _). rewrite H in Es. injection Es as <-.
  apply (no_select _ _ Et). unfold update_toks. apply nosel_cons; [reflexivity|]. apply nosel_cons; [apply (nosel_q dl kw KW)|].
  apply nosel_cons; [reflexivity|]. apply nosel_app.
  - apply nosel_commas, Forall_forall. intros ts Hts. apply in_map_iff in Hts as (c & <- & _). unfold set_tok. apply nosel_cons; [apply (nosel_q dl kw KW)|reflexivity].
  - apply nosel_cons; [reflexivity|]. apply nosel_cons; [apply (nosel_q dl kw KW)|reflexivity].
Qed.
Lemma upsert_plain t cols pk : identifier t = true -> identifier pk = true -> cols <> [] -> Forall (fun c => identifier c = true) cols ->
  has_select (upsert_sql Sqlite kw t cols pk) = false.
Proof.
  intros Ht Hp NE Fc. eapply no_select.
  - cbn [upsert_sql]. apply (tokens_upsert kw q_mark (fun _ => TQ) Z.of_nat); try assumption; try reflexivity. apply q_num.
  - unfold upsert_toks. do 2 (apply nosel_cons; [reflexivity|]). apply nosel_cons; [apply (nosel_q dl kw KW)|].
    apply nosel_cons; [reflexivity|]. apply nosel_app; [apply nosel_cols|].
    do 3 (apply nosel_cons; [reflexivity|]). apply nosel_app; [apply nosel_ps|].
    do 4 (apply nosel_cons; [reflexivity|]). apply nosel_cons; [apply (nosel_q dl kw KW)|]. do 2 (apply nosel_cons; [reflexivity|]).
    unfold action_toks. destruct (Nat.ltb 1 (List.length cols)); [|reflexivity]. do 3 (apply nosel_cons; [reflexivity|]).
    apply nosel_app; [apply nosel_cols|]. do 3 (apply nosel_cons; [reflexivity|]). apply nosel_app; [|reflexivity].
    apply nosel_commas, Forall_forall. intros ts Hts. apply in_map_iff in Hts as (c & <- & _). unfold ex_tok.
    do 2 (apply nosel_cons; [reflexivity|]). apply (nosel_q dl kw KW).
Qed.
Lemma delete_plain t e s vs : identifier t = true -> bracket_free Anywhere e -> supported dl e -> no_subquery e ->
  delete_sql Sqlite kw (set_filter e (q_new t)) = Ok (s, vs) -> has_select s = false.
Proof.
  intros Ht B S N H. destruct (delete_tokens dl kw Sqlite (set_filter e (q_new t))) as (s' & Es & Et & _).
  - repeat split; cbn; auto; try discriminate.
  - exact I.
  - rewrite H in Es. injection Es as E1 _. subst s'. apply (no_select _ _ Et). do 2 (apply nosel_cons; [reflexivity|]). apply nosel_cons; [apply (nosel_q dl kw KW)|].
    apply nosel_cons; [reflexivity|]. apply (nosel_toks dl kw KW); assumption.
Qed.
(** A filter with a subquery has a SELECT. *)
Lemma select_or e : no_subquery e \/ forall k, In (TWord "SELECT") (TokProofs.toks kw ptok k e).
Proof.
  induction e as [|c x H|c x H|c x H|c x H|c x H|c x H|c x H|l H|a b Ha Hb|a b Ha Hb|a Ha|c t tc a Ha|c vs|c t c2 js a Ha]
    using filter_ind; cbn [no_subquery]; try (left; exact I).
  - assert (G : fold_right (fun x acc => no_subquery x /\ acc) True l \/ forall k, In (TWord "SELECT") (toks_all kw ptok k l)).
    { induction l as [|x l IH]; [left; exact I|]. inversion H as [|? ? Hx Hl]; subst. cbn [fold_right].
      destruct Hx as [Nx|Sx]; [|right; intros k; cbn [toks_all]; destruct l; [apply Sx|apply in_or_app; left; apply Sx]].
      destruct (IH Hl) as [Nl|Sl]; [now left|]. right. intros k. cbn [toks_all]. destruct l as [|y l]; [destruct (Sl 0)|].
      apply in_or_app. right. right. apply Sl. }
    destruct G as [G|G]; [now left|]. right. intros k. rewrite toks_AllOf. apply G.
  - destruct Ha as [Na|Sa]; [|right; intros k; cbn [TokProofs.toks]; apply in_or_app; left; apply Sa].
    destruct Hb as [Nb|Sb]; [now left|]. right. intros k. cbn [TokProofs.toks]. apply in_or_app. right. right. apply Sb.
  - destruct Ha as [Na|Sa]; [|right; intros k; cbn [TokProofs.toks]; apply in_or_app; left; apply Sa].
    destruct Hb as [Nb|Sb]; [now left|]. right. intros k. cbn [TokProofs.toks]. apply in_or_app. right. right. apply Sb.
  - destruct Ha as [Na|Sa]; [now left|]. right. intros k. cbn [TokProofs.toks]. right. apply Sa.
  - right. intros k. cbn [TokProofs.toks]. do 3 right. now left.
  - right. intros k. cbn [TokProofs.toks]. do 3 right. now left.
Qed.
Lemma delete_select t e s vs : identifier t = true -> bracket_free Anywhere e -> supported dl e -> ~ no_subquery e ->
  delete_sql Sqlite kw (set_filter e (q_new t)) = Ok (s, vs) -> has_select s = true.
Proof.
  intros Ht B S N H. destruct (delete_tokens dl kw Sqlite (set_filter e (q_new t))) as (s' & Es & Et & _).
  - repeat split; cbn; auto; try discriminate.
  - exact I.
  - rewrite H in Es. injection Es as E1 _. subst s'. unfold has_select. rewrite Et. apply existsb_exists. exists (TWord "SELECT"). split; [|reflexivity].
    do 4 right. destruct (select_or e) as [X|X]; [contradiction|]. apply X.
Qed.
End Texts.

(** * The methods *)
Section Methods.
Variable json_text : string -> option string.
Variable kw : string -> bool.
Variable dl : dialect.
Variable conv : bool -> list string -> lvalue -> option lvalue.
Variable veq : lvalue -> lvalue -> bool.
Variable read : bool -> string -> f64.
Variable E : engine.
Variable fresh : etab -> Z.
Hypothesis KW : quotes_enough kw dl.
Notation T := (turso_run kw dl conv veq read E fresh).
Notation S := (sqlite_run kw dl conv veq read E fresh).

Lemma run_same c db : (forall s vs, call_sql kw c = Ok (s, vs) -> has_select s = false) -> T c db = S c db.
Proof.
  intros H. unfold turso_run, sqlite_run, data_call. destruct (call_sql kw c) as [[s vs]|e|]; cbn [obind fst snd]; try reflexivity.
  rewrite collects_same, (H s vs eq_refl). destruct (collect_all sqlite_write vs); cbn [omap obind]; try reflexivity.
  destruct (parse_stmt dl s); [|reflexivity]. now destruct (change conv veq read E fresh db vs s0).
Qed.
Lemma run_insert t cols vs db : identifier t = true -> Forall (fun c => identifier c = true) cols -> T (InsertOnly t cols vs) db = S (InsertOnly t cols vs) db.
Proof.
  intros Ht Fc. apply run_same. intros s v H. cbn [call_sql] in H. destruct (insert_sql Sqlite kw t cols) as [s'|e|] eqn:Es; cbn in H; try discriminate.
  injection H as <- _. exact (insert_plain dl kw KW t cols s' Ht Fc Es).
Qed.
Lemma run_upsert t cols pk vs db : identifier t = true -> identifier pk = true -> cols <> [] -> Forall (fun c => identifier c = true) cols ->
  T (InsertOrReplace t cols pk vs) db = S (InsertOrReplace t cols pk vs) db.
Proof. intros Ht Hp NE Fc. apply run_same. intros s v H. injection H as <- _. now apply (upsert_plain dl kw KW). Qed.
Lemma run_update t pk k cols vs db : identifier t = true -> identifier pk = true -> cols <> [] -> Forall (fun c => identifier c = true) cols ->
  T (UpdateRow t pk k cols vs) db = S (UpdateRow t pk k cols vs) db.
Proof.
  intros Ht Hp NE Fc. apply run_same. intros s v H. cbn [call_sql] in H. destruct (update_sql Sqlite kw t pk cols) as [s'|e|] eqn:Es; cbn in H; try discriminate.
  injection H as <- _. exact (update_plain dl kw KW t pk cols s' Ht Hp NE Fc Es).
Qed.
Lemma run_delete t e db : identifier t = true -> bracket_free Anywhere e -> supported dl e -> no_subquery e ->
  T (DeleteWhere t e) db = S (DeleteWhere t e) db.
Proof. intros Ht B Sp N. apply run_same. intros s v H. exact (delete_plain dl kw KW t e s v Ht B Sp N H). Qed.
(** A filter with a subquery is refused. *)
Lemma run_delete_select t e db : identifier t = true -> bracket_free Anywhere e -> supported dl e -> Forall (fun v => ~ is_custom v) (bound_values e) ->
  ~ no_subquery e -> T (DeleteWhere t e) db = (Err (DbError 1), db).
Proof.
  intros Ht B Sp NC N. unfold turso_run.
  destruct (delete_tokens dl kw Sqlite (set_filter e (q_new t))) as (s & Es & Et & _); [repeat split; cbn; auto; try discriminate|exact I|].
  assert (G : exists l, collect_all sqlval_to_turso (query_values (set_filter e (q_new t))) = Ok l).
  { rewrite filter_of_values. cbn [filter_of q_filter set_filter q_new]. clear - NC. induction NC as [|v vs Hv _ (l & IH)]; [exists []; reflexivity|].
    cbn [collect_all]. rewrite IH. assert (X : exists u, sqlval_to_turso v = Ok u) by (destruct v; try (eexists; reflexivity); exfalso; apply Hv; hnf; eauto).
    destruct X as (u & ->). eexists. reflexivity. }
  destruct G as (l & El). cbn [call_sql]. rewrite Es, El, (delete_select dl kw t e s _ Ht B Sp N Es). reflexivity.
Qed.

(** ** Relations *)
Context {X : Type}.
Notation MT := (turso_methods json_text kw dl conv veq read E fresh).
Notation MS := (sqlite_methods json_text kw dl conv veq read E fresh).
Lemma insert_new_same t owner : identifier t = true -> forall l db, insert_new_on MT t owner l db = insert_new_on MS t owner l db.
Proof.
  intros Ht. induction l as [|v l IH]; intros db; [reflexivity|]. cbn [insert_new_on on_insert_only turso_methods sqlite_methods].
  rewrite run_insert; [|exact Ht|repeat constructor]. destruct (S (InsertOnly t many_columns [owner; v]) db) as [[x|e|] db']; [apply IH|reflexivity|reflexivity].
Qed.
Lemma many_save_same (m : many X) db : (m_owner m <> None -> identifier (m_table m) = true) -> many_save_on MT m db = many_save_on MS m db.
Proof.
  intros Ht. unfold many_save_on. destruct (m_owner m) as [owner|]; [|reflexivity]. assert (Hi : identifier (m_table m) = true) by (apply Ht; discriminate).
  rewrite insert_new_same by exact Hi. destruct (insert_new_on MS (m_table m) owner (rev (m_new m)) db) as [[[x|e|] l] db']; try reflexivity.
  destruct (m_removed m) as [|v l0]; [reflexivity|]. cbn [on_delete_where turso_methods sqlite_methods].
  rewrite run_delete; [reflexivity|exact Hi|exact I| |exact I]. split; [reflexivity|discriminate].
Qed.
Lemma many_delete_same (m : many X) db : reserved dl "owner" = false -> (m_owner m <> None -> identifier (m_table m) = true) ->
  many_delete_on MT m db = many_delete_on MS m db.
Proof.
  intros RO Ht. unfold many_delete_on. destruct (m_owner m) as [owner|]; [|reflexivity]. cbn [on_delete_where turso_methods sqlite_methods].
  rewrite run_delete; [reflexivity|apply Ht; discriminate|exact I| |exact I]. split; [split; [reflexivity|exact RO]|exact I].
Qed.
Lemma many_set_same (R : related X) (m : many X) l db : reserved dl "owner" = false -> (m_owner m <> None -> identifier (m_table m) = true) ->
  many_set_on MT R m l db = many_set_on MS R m l db.
Proof.
  intros RO Ht. unfold many_set_on. rewrite many_delete_same by assumption. destruct (many_delete_on MS m db) as [[[x|e|] m1] db1] eqn:Ed; try reflexivity.
  destruct (add_all R m1 l) as [[y|e|] m2] eqn:Ea; try reflexivity.
  rewrite many_save_same; [reflexivity|].
  assert (K1 : m_owner m1 = m_owner m /\ m_table m1 = m_table m).
  { clear - Ed. unfold many_delete_on in Ed. destruct (m_owner m) as [owner|] eqn:Eo; [|discriminate Ed].
    destruct (on_delete_where MS (m_table m) _ db) as [[z|e|] db2]; try discriminate Ed. injection Ed as _ <- _. split; [exact Eo|reflexivity]. }
  assert (K2 : forall l m1 m2, add_all R m1 l = (Ok y, m2) -> m_owner m2 = m_owner m1 /\ m_table m2 = m_table m1).
  { clear. induction l as [|a l IH]; intros m1 m2 H; cbn [add_all] in H; [injection H as _ <-; auto|].
    destruct (many_add R m1 a) as [[z|e|] m3] eqn:Em; try discriminate H. apply IH in H as [-> ->]. clear - Em. unfold many_add in Em.
    destruct (rel_valid R a); [|discriminate Em]. destruct (rel_key R a); cbn in Em; try discriminate Em. injection Em as _ <-. split; reflexivity. }
  apply K2 in Ea as [-> ->]. destruct K1 as [-> ->]. exact Ht.
Qed.
End Methods.

(** * The rows of a database *)
Section Rows.
Variable json_text : string -> option string.
Lemma fits_injective t n v w l : wf_table t -> given_fits json_text t n v -> given_fits json_text t n w -> sqlite_write v = Ok l -> sqlite_write w = Ok l -> v = w.
Proof.
  intros [ND _] (c & Hc & Nc & ty & T1 & O1 & V1 & C1 & R1 & _) (c' & Hc' & Nc' & ty' & T2 & O2 & V2 & C2 & R2 & _) Wv Ww.
  assert (Ec : c' = c). { clear - ND Hc Hc' Nc Nc'. rewrite <- Nc in Nc'. clear Nc. induction (t_cols t) as [|a cs IH]; [destruct Hc|]. cbn in ND. inversion ND as [|? ? M1 M2]; subst.
    destruct Hc as [->|Hc], Hc' as [->|Hc']; auto; exfalso; apply M1; [rewrite <- Nc'|rewrite Nc']; now apply in_map. }
  subst c'. rewrite T1 in T2. injection T2 as <-.
  assert (RT : forall u, value_ok json_text u -> of_kind u ty -> ~ is_custom u -> (forall r, u = VReal r -> f64_finite r = true) -> sqlite_write u = Ok l -> sqlite_read json_text l ty = Ok u).
  { intros u VO OK NC RE W. assert (NN : ~ sqlval_nan u). { intros (r0 & -> & Hr). rewrite (f64_finite_not_nan r0 (RE r0 eq_refl)) in Hr. discriminate Hr. }
    destruct (sqlite_roundtrip json_text u ty VO OK NC NN) as (y & Y1 & Y2). rewrite W in Y1. injection Y1 as <-.
    assert (KL : sqlite_keeps l = l). { clear -RE W. destruct u; cbn in W; try discriminate W; injection W as <-; try reflexivity. cbn. now rewrite (f64_finite_not_nan _ (RE _ eq_refl)). }
    now rewrite KL in Y2. }
  pose proof (RT v V1 O1 C1 R1 Wv) as A. pose proof (RT w V2 O2 C2 R2 Ww) as B. congruence.
Qed.
(** A database has one content. *)
Lemma rows_determined E conv strict d D1 D2 db n t : wf_schema d -> keeps json_text E conv strict d D1 db -> keeps json_text E conv strict d D2 db ->
  In (n, t) (a_tables d) -> D1 n = D2 n.
Proof.
  intros [_ WF] K1 K2 Ht. destruct (WF n t Ht) as [_ WT].
  pose proof (kp_rows _ _ _ _ _ _ _ K1 n) as R1. pose proof (kp_rows _ _ _ _ _ _ _ K2 n) as R2.
  pose proof (kp_fit _ _ _ _ _ _ _ K1 n t Ht) as F1. pose proof (kp_fit _ _ _ _ _ _ _ K2 n t Ht) as F2.
  destruct (mget n db) as [b|]; [|congruence]. revert R1 R2 F1 F2. generalize (D1 n) (D2 n) (b_rows b). intros l1 l2 rows R1. revert l2.
  induction R1 as [|r1 y l1 rows Y1 R1 IH]; intros l2 R2 F1 F2; inversion R2 as [|r2 ? l3 ? Y2 R2']; subst; [reflexivity|].
  inversion F1 as [|? ? (_ & _ & G1) F1']; inversion F2 as [|? ? (_ & _ & G2) F2']; subst. f_equal; [|now apply IH].
  clear - Y1 Y2 G1 G2 WT. revert r2 Y2 G2. induction Y1 as [|p1 q r1 y [N1 W1] Y1 IH]; intros r2 Y2 G2; inversion Y2 as [|p2 ? r3 ? [N2 W2] Y2']; subst; [reflexivity|].
  inversion G1 as [|? ? A1 G1']; inversion G2 as [|? ? A2 G2']; subst. f_equal; [|now apply IH].
  destruct p1 as [n1 v1], p2 as [n2 v2]. cbn [fst snd] in *. subst n1 n2. f_equal. exact (fits_injective t (fst q) v1 v2 (snd q) WT A1 A2 W1 W2).
Qed.
End Rows.

(** * Saving *)
Section Save.
Context {U X : Type}.
Variable json_text : string -> option string.
Variable resolve : bool -> list string -> string -> option string.
Variable sem : ty -> codec U.
Variable valid : U -> bool.
Variable init : U -> SqlVal -> outcome unit * U.
Variable s : sdef.
Variable g : dbobject.
Variable kw : string -> bool.
Variable dl : dialect.
Variable conv : bool -> list string -> lvalue -> option lvalue.
Variable veq : lvalue -> lvalue -> bool.
Variable read : bool -> string -> f64.
Variable strict : bool.
Variable E : engine.
Variable fresh : etab -> Z.
Variable d : ADB.
Variable t : ATable.
Hypothesis DP : deployed json_text resolve sem s g kw dl conv veq read strict E d t.
Notation keeps := (keeps json_text E conv strict d).
Notation object := (@object U (many X)).
Notation MT := (turso_methods json_text kw dl conv veq read E fresh).
Notation MS := (sqlite_methods json_text kw dl conv veq read E fresh).
Notation icols := (map fst (do_insert g)).
Notation ktype := (cd_type _ (sem (sf_ty (do_pk g)))).

Lemma key_same D db vs : do_auto g = true -> keeps D db -> numbers_fit json_text fresh d db -> Forall2 (given_fits json_text t) icols vs ->
  turso_insert_returning_pk json_text kw dl conv veq read E fresh db (do_table g) icols ktype vs
  = insert_returning_pk json_text kw dl conv veq read E fresh db (do_table g) icols (do_pkcol g) ktype vs.
Proof.
  intros Ha KP NF G. pose proof DP as [Hc Hg ST IE US NO MI EX].
  destruct (key_column json_text resolve sem s g kw dl conv veq read strict E d t DP) as (ck & Hck & CF & Nck).
  pose proof (mi_table _ _ _ _ _ _ _ MI) as HT.
  assert (CFi : call_fits json_text E dl d D (InsertOnly (do_table g) icols vs)).
  { exists t. split; [exact HT|]. split; [exact (icols_nodup resolve s g Hc Hg)|]. split; [exact G|].
    exact (written_or_auto json_text resolve sem s g kw dl conv veq read strict E d t DP). }
  destruct (C56_key_partial json_text kw dl conv veq read strict E fresh d D db (do_table g) t icols vs ck _ ST US KP NF IE CFi HT Hck (cf_type _ _ _ _ CF) (mi_rowid _ _ _ _ _ _ _ MI))
    as (b & r & Hb & _ & O).
  destruct (C56_turso json_text kw dl conv veq read strict E fresh d D db (do_table g) t icols vs ck _ ST US KP NF CFi HT Hck (cf_type _ _ _ _ CF)) as (b2 & r2 & _ & _ & O2).
  { now apply (cf_pk _ _ _ _ CF). }
  { intros c' Hc' Pc'. destruct (proj2 (mi_columns _ _ _ _ _ _ _ MI) c' Hc') as (f & Hf & CF'). apply (cf_pk _ _ _ _ CF') in Pc'. subst f.
    assert (N : c_name c' = c_name ck) by (rewrite (cf_name _ _ _ _ CF'), (cf_name _ _ _ _ CF); reflexivity).
    destruct (us_wf _ US) as [_ W]. destruct (W _ _ HT) as [_ [ND _]]. clear - ND Hck Hc' N. induction (t_cols t) as [|a cs IH]; [destruct Hck|]. cbn in ND. inversion ND as [|? ? M1 M2]; subst.
    destruct Hck as [->|Hc], Hc' as [->|Hc']; auto; exfalso; apply M1; [rewrite <- N|rewrite N]; now apply in_map. }
  { unfold word. rewrite (cf_type _ _ _ _ CF). destruct (mi_integer _ _ _ _ _ _ _ MI Ha) as [-> | ->]; reflexivity. }
  cbv zeta in O, O2. rewrite Nck in O, O2. unfold insert_returning_pk, turso_insert_returning_pk in *.
  destruct (data_call kw dl conv veq read E fresh db (InsertOnly (do_table g) icols vs)) as [db'|e|]; [|reflexivity|reflexivity].
  assert (NO2 : forall r, ~ (db' = db /\ keeps (with_table D (do_table g) (D (do_table g) ++ [r])) db')).
  { intros r0 [-> K]. pose proof (rows_determined json_text E conv strict d _ _ db (do_table g) t (us_wf _ US) K KP HT) as R.
    rewrite with_table_same in R. apply (f_equal (@List.length _)) in R. rewrite app_length in R. cbn in R. lia. }
  destruct O as [(v & db1 & E1 & F1 & K1)|[E1 _]], O2 as [(v2 & db2 & E2 & F2 & K2)|[E2 _]];
    injection E1 as Ea Eb; injection E2 as Ec Ed; rewrite Ea, Ec.
  - subst db1 db2. pose proof (rows_determined json_text E conv strict d _ _ _ (do_table g) t (us_wf _ US) K1 K2 HT) as R.
    rewrite !with_table_same in R. apply app_inj_tail in R as [_ R]. subst r2. congruence.
  - exfalso. subst db1. exact (NO2 r (conj Ed K1)).
  - exfalso. subst db2. exact (NO2 r2 (conj Eb K2)).
  - reflexivity.
Qed.

Lemma manys_same : forall l, Forall (fun e => identifier (snd e) = true) l ->
  forall (o : object) db, (forall f tn m, In (f, tn) l -> obj_get o f = Some (FM m) -> m_owner m <> None -> identifier (m_table m) = true) -> NoDup (map fst l) ->
  save_manys_on MT sem g l o db = save_manys_on MS sem g l o db.
Proof.
  pose proof DP as [Hc Hg ST IE US NO MI EX]. induction 1 as [|[f tn] l Ht Fl IH]; intros o db H ND; [reflexivity|]. cbn [save_manys_on]. cbn [snd map fst] in *.
  inversion ND as [|? ? ND1 ND2]; subst. destruct (obj_get o f) as [[u|m]|] eqn:Ef; try reflexivity. destruct (field_sql sem o (do_pk g)) as [owner|e|]; try reflexivity.
  rewrite (many_save_same json_text kw dl conv veq read E fresh (sr_quotes _ _ _ _ _ _ _ ST)).
  - destruct (many_save_on MS (ensure_init m tn owner ktype) db) as [[[x|e|] m'] db']; try reflexivity. apply IH; [|exact ND2].
    intros f' tn' m2 Hin Hg2. apply (H f' tn' m2); [now right|]. rewrite <- Hg2. symmetry. rewrite obj_get_set. destruct (String.eqb_spec f f') as [->|]; [|reflexivity]. exfalso. apply ND1. exact (in_map fst _ _ Hin).
  - unfold ensure_init. destruct (m_owner m) eqn:Eo; [|intros _; exact Ht]. intros _. apply (H f tn m); [now left|exact Ef|congruence].
Qed.

Lemma save_same D db (o : object) : keeps D db -> numbers_fit json_text fresh d db -> object_fits json_text resolve sem valid init s g d t o ->
  save_on MT sem valid init g o db = save_on MS sem valid init g o db.
Proof.
  intros KP NF OF. pose proof DP as [Hc Hg ST IE US NO MI EX]. pose proof (sr_quotes _ _ _ _ _ _ _ ST) as KW.
  assert (IC := icols_ok resolve s g dl Sqlite Hc Hg NO).
  assert (II : forall u ovs, do_auto g = true -> (forall vs, ovs = Ok vs -> Forall2 (given_fits json_text t) icols vs) ->
            insert_and_init_on MT sem init g icols ovs o u db = insert_and_init_on MS sem init g icols ovs o u db).
  { intros u ovs Ha G. unfold insert_and_init_on. destruct ovs as [vs|e|]; try reflexivity. cbn [on_insert_returning_pk turso_methods sqlite_methods].
    now rewrite (key_same D db vs Ha KP NF (G vs eq_refl)). }
  assert (R : save_row_on MT sem valid init g o db = save_row_on MS sem valid init g o db).
  { unfold save_row_on. destruct (obj_key g o) as [u|] eqn:Eu; [|reflexivity]. destruct (do_auto g) eqn:Ha; cbn [andb].
    - destruct (Nat.eqb_spec (List.length (dr_columns (do_result g))) 1) as [L1|L1].
      + destruct (valid u); [reflexivity|]. rewrite <- (single resolve s g Hc Hg Ha L1). apply II; [reflexivity|]. intros vs [= <-].
        rewrite (single resolve s g Hc Hg Ha L1). constructor.
      + destruct (valid u).
        * destruct (field_sql sem o (do_pk g)) as [kv|e|]; try reflexivity. destruct (non_auto_values sem g o false) as [vs|e|]; try reflexivity.
          cbn [on_update turso_methods sqlite_methods]. rewrite (run_update kw dl conv veq read E fresh KW); [reflexivity|exact (nm_table _ _ _ NO)|exact (pk_ident g dl Sqlite NO)|exact (not_single resolve s g Hc Hg Ha L1)|exact IC].
        * apply II; [reflexivity|]. intros vs Ev. exact (written_fit json_text resolve sem valid init s g kw dl conv veq read strict E d t DP o true vs (or_introl eq_refl) OF Ev).
    - destruct (non_auto_values sem g o true) as [vs|e|]; try reflexivity. cbn [on_insert_or_replace turso_methods sqlite_methods].
      rewrite (run_upsert kw dl conv veq read E fresh KW); [reflexivity|exact (nm_table _ _ _ NO)|exact (pk_ident g dl Sqlite NO)| |exact (nm_cols _ _ _ NO)].
      intros Z. pose proof (pk_in resolve s g Hc Hg) as P. rewrite Z in P. destruct P. }
  unfold save_on. rewrite R. destruct (save_row_on MS sem valid init g o db) as [[[x|e|] o1] db1] eqn:Er; try reflexivity.
  assert (RN : forall f, In f (relation_fields resolve s) -> identifier (relation_name (do_table g) f) = true).
  { intros f Hf. destruct (mi_relations _ _ _ _ _ _ _ MI f Hf) as (rt & Hrt & _). exact (ident_of json_text resolve sem s g kw dl conv veq read strict E d t DP _ rt Hrt). }
  apply manys_same.
  - rewrite (relations_eq resolve s g Hg). apply Forall_forall. intros [a b] H. apply in_map_iff in H as (f & [= <- <-] & Hf). now apply RN.
  - intros a tn m Hin. rewrite (relations_eq resolve s g Hg) in Hin. apply in_map_iff in Hin as (f & [= <- <-] & Hf).
    assert (G1 : obj_get o1 (sf_ident f) = obj_get o (sf_ident f)).
    { destruct (own_row_sim json_text resolve sem valid init s g kw dl conv veq read strict E fresh d t DP D db o KP NF OF) as (kv0 & _ & RD).
      destruct (RD x o1 db1 Er) as [[-> _]|(u & u' & _ & _ & _ & -> & _)]; [reflexivity|]. rewrite obj_get_set.
      destruct (String.eqb_spec (sf_ident (do_pk g)) (sf_ident f)) as [Eq|]; [|reflexivity].
      exfalso. revert Eq. apply (row_relation resolve s Hc (do_pk g) f (pk_row resolve s g Hc Hg) Hf). }
    rewrite G1. intros Gm Ho. destruct (of_relations _ _ _ _ _ _ _ _ _ _ OF f Hf) as (m0 & Hm & Ow & _). rewrite Gm in Hm. injection Hm as <-.
    destruct Ow as [Ow|[_ (k & _ & _ & ->)]]; [congruence|]. now apply RN.
  - rewrite (relations_eq resolve s g Hg), map_map. cbn [fst]. apply (NoDup_map_inv (strip_raw)). rewrite map_map. exact (relations_nodup resolve s Hc).
Qed.

Lemma delete_same db (o : object) : delete_on MT sem g o db = delete_on MS sem g o db.
Proof.
  pose proof DP as [Hc Hg ST IE US NO MI EX]. unfold delete_on. destruct (field_sql sem o (do_pk g)) as [kv|e|]; try reflexivity.
  cbn [on_delete_where turso_methods sqlite_methods]. rewrite (run_delete kw dl conv veq read E fresh (sr_quotes _ _ _ _ _ _ _ ST)); [reflexivity|exact (nm_table _ _ _ NO)|exact I| |exact I].
  split; [exact (nm_pk _ _ _ NO)|exact I].
Qed.
End Save.

(** * Loading *)
Section Load.
Context {U X : Type}.
Variable json_text : string -> option string.
Variable resolve : bool -> list string -> string -> option string.
Variable sem : ty -> codec U.
Variable s : sdef.
Variable g : dbobject.
Variable kw : string -> bool.
Variable dl : dialect.
Variable conv : bool -> list string -> lvalue -> option lvalue.
Variable veq : lvalue -> lvalue -> bool.
Variable read : bool -> string -> f64.
Variable strict : bool.
Variable E : engine.
Variable d : ADB.
Variable t : ATable.
Hypothesis DP : deployed json_text resolve sem s g kw dl conv veq read strict E d t.
Variable C : Type.
Variable conn : C -> string -> list tvalue -> outcome (list (list tvalue)) * C.
Hypothesis TL : turso_like dl E.
Notation keeps := (keeps json_text E conv strict d).
Notation object := (@object U (many X)).
Notation cols := (map fst (dr_columns (do_result g))).
Notation tcols := (map (fun c => (fst c, cd_type _ (sem (snd c)))) (dr_columns (do_result g))).

Lemma read_same : forall tys ws vs us, List.length tys = List.length ws -> read_row json_text tys ws = Ok vs -> Forall2 stored ws us ->
  turso_read_row json_text tys us = Ok vs.
Proof.
  induction tys as [|ty tys IH]; intros ws vs us L R F.
  - destruct ws; [|discriminate L]. injection R as <-. reflexivity.
  - destruct ws as [|w ws]; [discriminate L|]. inversion F as [|? u ? us' A F']; subst. unfold read_row in R. cbn [combine collect_all fst snd] in R.
    destruct (stored_is w u A) as (l & Wl & ->). rewrite Wl in R. cbn [obind] in R. cbn [turso_read_row].
    destruct (sqlite_read json_text l ty) as [v|e|] eqn:Er; cbn [obind] in R; try discriminate R. rewrite (reads_same _ _ _ _ Er). cbn [obind].
    fold (read_row json_text tys ws) in R. destruct (read_row json_text tys ws) as [vs'|e|] eqn:Ev; cbn [obind] in R; try discriminate R.
    rewrite (IH ws vs' us'); [exact R|now injection L|exact Ev|exact F'].
Qed.
Lemma reads_all_same tys : forall out rs rows, Forall (fun ws => List.length tys = List.length ws) out -> collect_all (read_row json_text tys) out = Ok rs ->
  Forall2 (Forall2 stored) out rows -> collect_all (turso_read_row json_text tys) rows = Ok rs.
Proof.
  intros out rs rows L R F. revert rs L R. induction F as [|ws us out rows A F IH]; intros rs L R; [exact R|]. inversion L as [|? ? L1 L2]; subst. cbn [collect_all] in *.
  destruct (read_row json_text tys ws) as [v|e|] eqn:Ev; cbn [obind] in R; try discriminate R. rewrite (read_same tys ws v us L1 Ev A). cbn [obind].
  destruct (collect_all (read_row json_text tys) out) as [vs|e|] eqn:Eo; cbn [obind] in R; try discriminate R. rewrite (IH vs L2 eq_refl). exact R.
Qed.
Lemma frame_refl n (r : Sql.row) : Forall (fun p => ~ is_custom (snd p)) r -> frames [(n, r)] [(n, r)].
Proof.
  intros F. constructor; [|constructor]. split; [reflexivity|]. cbn [snd]. induction F as [|p r N F IH]; constructor; [|exact IH]. split; [reflexivity|now apply not_custom_alike].
Qed.
Lemma not_custom_stored v : ~ is_custom v -> exists u, stored v u.
Proof. intros N. destruct (not_custom_alike v N) as (l & W & _). exists (lt l). now apply stored_lt. Qed.
Lemma columns_len cs : forall (r : Sql.row) vs, columns_of cs r = Some vs -> List.length vs = List.length cs.
Proof.
  induction cs as [|c cs IH]; intros r vs H; unfold columns_of in H; cbn in H; [injection H as <-; reflexivity|].
  destruct (field c r); [|discriminate]. cbn in H. fold (columns_of cs r) in H. destruct (columns_of cs r) as [vs'|] eqn:Ev; [|discriminate]. injection H as <-. cbn. f_equal. now apply (IH r).
Qed.

(** A query on Turso gives one of the answers SQLite might give. *)
Lemma rows_same D db x c : keeps D db -> connected C conn dl E db -> query_fits E dl (do_table g) D x -> nonneg (q_limit x) ->
  StmtSpec.fits Sqlite x (q_limit x) D -> turso_can E D x ->
  exists rs c', turso_rows json_text kw C conn c tcols x = Ok (rs, c') /\ sqlite_query_answers json_text kw dl E tcols x db (Ok rs).
Proof.
  intros KP AN QF NL FT CAN. pose proof QF as [Qt Qf Qc Qs Qo]. pose proof DP as [Hc Hg ST IE US NO MI EX]. pose proof ST as [KW EXC EO CS SO].
  assert (EC : map fst tcols = cols) by now rewrite map_map.
  assert (Q : query_names_ok dl x cols).
  { split; [rewrite Qt; exact (nm_table _ _ _ NO)|]. split; [intros Hn; pose proof (pk_in resolve s g Hc Hg) as Hp; rewrite Hn in Hp; contradiction|].
    split; [exact (nm_cols _ _ _ NO)|]. split; [apply Forall_forall; intros o Ho; exact (proj1 (Qs o Ho))|].
    destruct (q_filter x) as [e|]; [|exact I]. destruct (Qf e eq_refl) as (B1 & B2 & _). auto. }
  pose proof (shown_dbs D db (kp_rows _ _ _ _ _ _ _ KP)) as SH.
  assert (FO : filter_ok E D (q_table x) (q_filter x)) by (rewrite Qt; exact Qc).
  destruct (returns_exist json_text resolve sem s g kw dl conv veq read strict E d t DP D db x (q_limit x) KP QF) as (rs0 & R0).
  destruct (returns_rel E veq CS D (shown_db db) x (q_limit x) cols rs0 SH R0) as (out0 & R1 & _).
  assert (FT' : StmtSpec.fits Sqlite x (q_limit x) (shown_db db)).
  { intros A B. cbn in FT. rewrite (Forall2_len _ _ _ (SH (q_table x))). auto. }
  destruct (C28_query_partial dl kw E (shown_db db) C conn c cols x (q_limit x) out0 KW (tl_empty_in _ _ TL) EO (tl_alike _ _ TL) AN Q NL Qo) as (out & rows & c' & ET & RO & RS).
  { intros e He. destruct (CAN e He) as (N1 & r & v & Fr & Mr). split; [exact N1|]. exists [(q_table x, r)], v.
    rewrite <- Mr. symmetry. apply (means_rel E veq CS D (shown_db db) SH). now apply frame_refl. }
  { unfold storable, query_values. destruct (q_filter x) as [e|]; [|constructor]. eapply Forall_impl; [|exact (proj2 (proj2 (Qf e eq_refl)))]. exact not_custom_stored. }
  { apply (filter_ok_rel E veq CS D (shown_db db) _ _ SH). exact FO. }
  { exact FT'. }
  { exact R1. }
  destruct (load_correct json_text E veq CS kw dl conv strict d D db t x (q_limit x) cols (map snd tcols) EO KW (us_wf _ US) KP) as (t0 & sel & Es & Ep & M1 & M2);
    [rewrite Qt; exact (mi_table _ _ _ _ _ _ _ MI)|exact (kinds_known json_text resolve sem s g kw dl conv veq read strict E d t DP)|exact Q|exact NL|exact Qo|rewrite Qt; exact Qc|exact FT|].
  destruct (fetch_correct dl kw KW Sqlite cols x (q_limit x) Q I I NL Qo) as (t1 & sel1 & Es1 & Ep1 & H).
  assert (t1 = t0 /\ sel1 = sel) as [-> ->].
  { change (fetch_text kw unit q_next tt true cols x (q_limit x) = Ok (t1, query_values x)) in Es1. rewrite Es in Es1. injection Es1 as ->. rewrite Ep in Ep1. injection Ep1 as ->. auto. }
  specialize (H E (shown_db db) EO (filter_ok_rel E veq CS D (shown_db db) _ _ SH FO) FT').
  destruct (M1 out (proj2 (H out) RO)) as (rs & Er & Rr). exists rs, c'. split.
  - unfold turso_rows. rewrite EC, ET. cbn [obind fst snd]. rewrite (reads_all_same (map snd tcols) out rs rows); [reflexivity| |exact Er|exact RS].
    apply returns_from in RO. eapply Forall_impl; [|exact RO]. cbn beta. intros ws (r & _ & Cr). rewrite (columns_len _ _ _ Cr), !map_length. reflexivity.
  - apply (query_answers_are json_text resolve sem s g kw dl conv veq read strict E d t DP D db x _ KP QF NL FT). left. eauto.
Qed.

Lemma load_same D db x c : keeps D db -> connected C conn dl E db -> query_fits E dl (do_table g) D x -> nonneg (q_limit x) ->
  StmtSpec.fits Sqlite x (q_limit x) D -> turso_can E D x ->
  exists r c', turso_load (X := X) json_text kw C conn sem g c x = omap (fun l => (l, c')) r /\ sqlite_load_answers (X := X) json_text kw dl E sem g x db r.
Proof.
  intros KP AN QF NL FT CAN. destruct (rows_same D db x c KP AN QF NL FT CAN) as (rs & c' & ET & QA).
  exists (omapm (object_of_row sem g) rs), c'. split; [|exists (Ok rs); auto]. unfold turso_load. rewrite ET. cbn [obind fst snd]. now destruct (omapm (object_of_row sem g) rs).
Qed.
Lemma load_first_same D db x c : keeps D db -> connected C conn dl E db -> query_fits E dl (do_table g) D x -> turso_can E D x ->
  exists r c', turso_load_first (X := X) json_text kw C conn sem g c x = omap (fun l => (l, c')) r /\ sqlite_load_first_answers (X := X) json_text kw dl E sem g x db r.
Proof.
  intros KP AN QF CAN.
  assert (QF1 : query_fits E dl (do_table g) D (set_limit 1 x)) by (destruct QF as [Qt Qf Qc Qs Qo]; constructor; assumption).
  destruct (rows_same D db (set_limit 1 x) c KP AN QF1) as (rs & c' & ET & QA); [cbn; lia|cbn; discriminate|exact CAN|].
  exists (match rs with [] => Ok None | row :: _ => omap Some (object_of_row sem g row) end), c'. split; [|exists (Ok rs); auto].
  unfold turso_load_first. rewrite ET. cbn [obind fst snd]. destruct rs as [|row rs]; [reflexivity|]. now destruct (object_of_row sem g row).
Qed.
Notation K := (given_fits json_text t (do_pkcol g)).
Lemma get_same_turso D db k c : keeps D db -> connected C conn dl E db -> K k ->
  exists r c', turso_get (X := X) json_text kw C conn sem g c k = omap (fun o => (o, c')) r /\ sqlite_get_answers (X := X) json_text kw dl E sem g k db r.
Proof.
  intros KP AN Kk. set (x := set_limit 1 (set_filter (BEq (do_pkcol g) (EVal k)) (q_new (do_table g)))).
  assert (NC : ~ is_custom k) by (destruct Kk as (? & _ & _ & ? & _ & _ & _ & N & _); exact N).
  assert (QF : query_fits E dl (do_table g) D x).
  { constructor.
    - reflexivity.
    - intros e [= <-]. split; [exact I|]. split; [split; [exact (nm_pk _ _ _ (dp_names _ _ _ _ _ _ _ _ _ _ _ _ _ _ DP))|exact I]|]. cbn [bound_values]. destruct k; repeat (constructor; try exact NC).
    - apply eq_ok. exact (pk_rows json_text resolve sem s g kw dl conv veq read strict E d t DP D db KP).
    - intros o [].
    - exact I. }
  destruct (load_same D db x c KP AN QF) as (r & c' & ET & (q & Hq & ->)); [cbn; lia|cbn; discriminate| |].
  { intros e [= <-]. split; [exact I|]. exists [(do_pkcol g, VInt 0)].
    assert (exists v, means E D [(q_table x, [(do_pkcol g, VInt 0)])] (BEq (do_pkcol g) (EVal k)) = Some v) as (v & Hv).
    { apply (eq_ok E (fun _ => [[(do_pkcol g, VInt 0)]]) (q_table x)); [repeat constructor|]. now left. }
    exists v. split; [repeat constructor; intros (a & b & Z); discriminate Z|exact Hv]. }
  unfold turso_get, turso_try_get. fold x. rewrite ET.
  exists (obind (omap (fun l => nth_error l 0) (obind q (omapm (object_of_row sem g)))) (fun y => match y with Some o => Ok o | None => Err NoSuchObject end)), c'. split.
  - destruct (obind q (omapm (object_of_row sem g))) as [l|e|]; cbn; try reflexivity. destruct l; reflexivity.
  - eexists. split; [exists q; split; [exact Hq|reflexivity]|reflexivity].
Qed.

Lemma many_load_same D db (m : many object) owner order valid c : keeps D db -> connected C conn dl E db -> relation_in d (m_table m) owner ->
  (order <> None -> keys_ordered E K) -> m_owner m = Some owner -> Forall (fun v => ~ is_custom v) (m_new m) ->
  exists r c' m', turso_many_load json_text kw C conn sem valid g c m order = (omap (fun l => (l, c')) r, m')
    /\ sqlite_many_load_answers json_text kw dl E sem valid g m order db r m'.
Proof.
  intros KP AN RI KO Ho NC. unfold turso_many_load, sqlite_many_load_answers, many_query. rewrite Ho.
  destruct (m_all m) as [l|] eqn:Ea; [exists (Ok l), c, m; auto|].
  set (x := first_asked g (m_table m) owner order).
  change (rel_pkcol (related_model (X := X) sem valid g)) with (do_pkcol g). change (rel_table (related_model (X := X) sem valid g)) with (do_table g).
  assert (Ex : (match order with None => set_filter (BSubquery (do_pkcol g) (m_table m) "has" (BEq "owner" (EVal owner))) (q_new (do_table g))
                | Some desc => add_order (do_pkcol g) desc (set_filter (BSubquery (do_pkcol g) (m_table m) "has" (BEq "owner" (EVal owner))) (q_new (do_table g))) end) = x)
    by (destruct order; reflexivity).
  rewrite Ex.
  destruct (load_same D db x c KP AN (first_fits json_text resolve sem s g kw dl conv veq read strict E d t DP D db _ owner order KP RI KO)) as (r1 & c1 & E1 & A1).
  { destruct order; exact I. } { destruct order; cbn; intros _ Y; now destruct Y. }
  { intros e He. assert (e = BSubquery (do_pkcol g) (m_table m) "has" (BEq "owner" (EVal owner))) as -> by (unfold x in He; destruct order; now injection He as <-).
    split; [exact I|]. exists [(do_pkcol g, VInt 0)].
    rewrite means_sub, lookup_row. cbn [field]. rewrite String.eqb_refl. cbn [obind2].
    destruct RI as (RI1 & NN & RI2). pose proof (relation_rows json_text conv strict E d D db (m_table m) owner KP (conj RI1 (conj NN RI2))) as RT.
    rewrite select_owner by assumption. cbn [obind2]. rewrite partner_values by assumption. cbn [obind2].
    eexists. split; [repeat constructor; intros (a & b & Z); discriminate Z|reflexivity]. }
  unfold turso_uncached, sqlite_uncached_answers. rewrite E1. destruct r1 as [vals|e|]; cbn [omap obind fst snd].
  2:{ exists (Err e), c1, m. split; [reflexivity|]. split; [exists (Err e); auto|reflexivity]. }
  2:{ exists Panic, c1, m. split; [reflexivity|]. split; [exists Panic; auto|reflexivity]. }
  destruct (m_new m) as [|v0 l0] eqn:En.
  - exists (Ok vals), c1, (set_all m (Some vals)). split; [reflexivity|]. split; [exists (Ok vals); auto|reflexivity].
  - destruct (load_same D db (set_filter (BIn (do_pkcol g) (v0 :: l0)) (q_new (do_table g))) c1 KP AN) as (r2 & c2 & E2 & A2).
    { apply (second_fits json_text resolve sem s g kw dl conv veq read strict E d t DP D db); [exact KP|discriminate|exact NC]. }
    { exact I. } { cbn. intros _ Y. now destruct Y. }
    { intros e [= <-]. split; [exact I|]. exists [(do_pkcol g, VInt 0)]. cbn [means]. rewrite lookup_row. cbn [field]. rewrite String.eqb_refl. cbn [obind2].
      eexists. split; [repeat constructor; intros (a & b & Z); discriminate Z|reflexivity]. }
    rewrite E2. exists (omap (app vals) r2), c2. destruct r2 as [l2|e|]; cbn [omap obind fst snd]; eexists.
    + split; [reflexivity|]. split; [exists (Ok vals); split; [exact A1|]; exists (Ok l2); auto|reflexivity].
    + split; [reflexivity|]. split; [exists (Ok vals); split; [exact A1|]; exists (Err e); auto|reflexivity].
    + split; [reflexivity|]. split; [exists (Ok vals); split; [exact A1|]; exists Panic; auto|reflexivity].
Qed.
End Load.
