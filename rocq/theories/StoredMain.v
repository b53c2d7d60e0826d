(** Each call on a database that keeps the rows. *)
From Coq Require Import Permutation.
From Verif Require Import Base SqlVal Sql SqlStmt Query QuerySpec Stmt StmtSpec Adb AdbSpec LiteralSpec Ddl DdlSpec
  Backend BackendSpec Turso SqliteSem MigrateSpec SqliteData DataCalls StoredSpec RenderProofs LexProofs TokProofs ParseProofs StmtProofs StmtParse StmtSem
  UpsertProofs StmtMain StoredRel MigrateProofs MigrateReady StoredProofs.

Lemma shown_dbs D db : has_rows D db -> dbs D (shown_db db).
Proof.
  intros H n. specialize (H n). unfold shown_db. destruct (mget n db) as [b|]; [|rewrite H; constructor].
  induction H as [|r x l m A F IH]; [constructor|]. cbn [map]. constructor; [now apply row_is_rel|exact IH].
Qed.
Lemma collect_writes vs : Forall (fun v => ~ is_custom v) vs -> exists ls, collect_all sqlite_write vs = Ok ls.
Proof.
  induction 1 as [|v vs N F (ls & IH)]; [now exists []|]. cbn [collect_all].
  destruct (not_custom_alike v N) as (l & W & _). rewrite W. cbn. rewrite IH. cbn. eauto.
Qed.
Lemma map_fst_combine {A B} (l : list A) (m : list B) : List.length m = List.length l -> map fst (combine l m) = l.
Proof. revert m. induction l as [|a l IH]; intros [|b m] L; try discriminate L; [reflexivity|]. cbn. f_equal. apply IH. cbn in L. lia. Qed.
Lemma Forall2_len {A B} (R : A -> B -> Prop) l m : Forall2 R l m -> List.length m = List.length l.
Proof. induction 1; cbn; congruence. Qed.
Lemma rel_refl l : Forall (fun p : string * SqlVal => alike (snd p) (snd p)) l -> rel l l.
Proof. induction 1; constructor; [split; auto|assumption]. Qed.
Lemma NoDup_app_disjoint {A} (l m : list A) : NoDup l -> NoDup m -> (forall x, In x l -> ~ In x m) -> NoDup (l ++ m).
Proof.
  induction 1 as [|a l Na Nl IH]; intros Nm H; [exact Nm|]. cbn. constructor.
  - rewrite in_app_iff. intros [X|X]; [tauto|]. exact (H a (or_introl eq_refl) X).
  - apply IH; [assumption|]. intros x Hx. apply H. now right.
Qed.
Lemma distinct_NoDup l : NoDup l -> distinct l = true.
Proof.
  induction 1 as [|a l N D IH]; [reflexivity|]. cbn. rewrite IH, andb_true_r. apply negb_true_iff.
  destruct (existsb (String.eqb a) l) eqn:X; [|reflexivity]. apply existsb_exists in X as (b & Hb & Eb). apply String.eqb_eq in Eb. subst b. contradiction.
Qed.
Lemma existsb_name n l : existsb (String.eqb n) l = true <-> In n l.
Proof.
  rewrite existsb_exists. split; [intros (b & Hb & Eb); apply String.eqb_eq in Eb; now subst|].
  intros H. exists n. split; [assumption|apply String.eqb_refl].
Qed.

Section Main.
Variable json_text : string -> option string.
Variable E : engine.
Variable veq : lvalue -> lvalue -> bool.
Variable conv : bool -> list string -> lvalue -> option lvalue.
Variable read : bool -> string -> f64.
Variable strict : bool.
Variable fresh : etab -> Z.
Variable kw : string -> bool.
Variable dl : dialect.
Hypothesis EO : engine_ok E.
Hypothesis CS : compares_stored E veq.
Hypothesis SO : storage_ok conv strict read.
Hypothesis KW : quotes_enough kw dl.
Hypothesis EX : reserved dl "excluded" = false.
Variable d : ADB.
Hypothesis WF : wf_schema d.
Hypothesis SF : schema_fine d.
Hypothesis RK : references_keys d.

Notation column_takes := (column_takes json_text).
Notation given_fits := (given_fits json_text).
Notation row_fits := (row_fits json_text).
Notation keeps := (keeps json_text E conv strict d).
Notation data_call := (data_call kw dl conv veq read E fresh).

Lemma given_alike t n v : given_fits t n v -> alike v v.
Proof. intros (c & _ & _ & ty & _ & _ & _ & N & _). now apply not_custom_alike. Qed.
Lemma givens_custom t cols vs : Forall2 (given_fits t) cols vs -> Forall (fun v => ~ is_custom v) vs.
Proof. induction 1 as [|n v cols vs (c & _ & _ & ty & _ & _ & _ & N & _) F IH]; constructor; assumption. Qed.
Lemma givens_alike t cols vs : Forall2 (given_fits t) cols vs -> Forall (fun p => alike (snd p) (snd p)) (combine cols vs).
Proof. induction 1 as [|n v cols vs H F IH]; [constructor|]. cbn. constructor; [now apply (given_alike t n)|assumption]. Qed.
Lemma givens_pairs t cols vs : Forall2 (given_fits t) cols vs -> Forall (fun p => given_fits t (fst p) (snd p)) (combine cols vs).
Proof. induction 1 as [|n v cols vs H F IH]; [constructor|]. cbn. constructor; assumption. Qed.
Lemma givens_columns t cols vs n : Forall2 (given_fits t) cols vs -> In n cols -> has_column t n.
Proof.
  induction 1 as [|m v cols vs (c & Hc & Nc & _) F IH]; intros H; [destruct H|]. destruct H as [<-|H]; [now exists c|now apply IH].
Qed.
Lemma assign1_fits t c v r : given_fits t c v -> row_fits t r -> row_fits t (assign1 c v r).
Proof.
  intros G (N1 & N2 & N3). unfold StoredSpec.row_fits. rewrite assign1_names. split; [assumption|]. split; [assumption|].
  unfold assign1. rewrite Forall_forall in *. intros p Hp. apply in_map_iff in Hp as ([n w] & <- & Hq). cbn [fst].
  destruct (String.eqb_spec n c) as [->|]; [exact G|]. exact (N3 _ Hq).
Qed.
Lemma assign_fits t cols vs : Forall2 (given_fits t) cols vs -> forall r, row_fits t r -> row_fits t (assign (combine cols vs) r).
Proof.
  induction 1 as [|n v cols vs H F IH]; intros r R; [exact R|].
  change (row_fits t (assign (combine cols vs) (assign1 n v r))). apply IH. now apply assign1_fits.
Qed.
Lemma rewrite_fits t p f l : (forall r, row_fits t r -> row_fits t (f r)) -> Forall (row_fits t) l -> Forall (row_fits t) (rewrite_rows p f l).
Proof.
  intros H F. unfold rewrite_rows. apply Forall_forall. intros x Hx. apply in_map_iff in Hx as (r & <- & Hr). rewrite Forall_forall in F.
  destruct (p r); auto.
Qed.
Lemma rel_has cols t l m : Forall (row_fits t) l -> Forall2 rel l m -> (forall n, In n cols -> has_column t n) -> Forall (row_has cols) m.
Proof.
  intros F R H. induction R as [|r x l m A R IH]; [constructor|]. inversion F as [|? ? (N1 & N2 & N3) F2]; subst. constructor; [|now apply IH].
  unfold row_has. rewrite <- (rel_names r x A). split; [assumption|]. intros n Hn. apply N2. auto.
Qed.
Lemma knows_ok t b cols : table_is strict t b -> (forall n, In n cols -> has_column t n) -> knows b cols = true.
Proof.
  intros TI H. apply forallb_forall. intros n Hn. destruct (H n Hn) as (c & Hc & <-). destruct (declared strict t b c TI Hc) as (k & -> & _). reflexivity.
Qed.
Lemma key_ok t b c : table_is strict t b -> In c (t_cols t) -> c_pk c = true \/ c_unique c = true -> key_there b (c_name c) = true.
Proof.
  intros TI Hc K. unfold key_there. destruct (declared strict t b c TI Hc) as (k & -> & _ & (D1 & D2 & D3 & D4 & D5)). rewrite D4, D5.
  destruct K as [->| ->]; [reflexivity|apply orb_true_r].
Qed.
Lemma name_ok n t : In (n, t) (a_tables d) -> identifier n = true.
Proof. intros H. destruct WF as [_ W]. destruct (SF n t H) as (I & _). destruct (W n t H) as [N _]. now rewrite <- N. Qed.
Lemma col_names_ok n t cols : In (n, t) (a_tables d) -> (forall m, In m cols -> has_column t m) -> Forall (fun c => identifier c = true) cols.
Proof.
  intros H C. apply Forall_forall. intros m Hm. destruct (C m Hm) as (c & Hc & <-). destruct (SF n t H) as (_ & _ & F).
  rewrite Forall_forall in F. now destruct (F c Hc) as (I & _).
Qed.

(** From the statement to the call. *)
Lemma call_settles D db c n t s V st b extra D1 r l :
  keeps D db -> In (n, t) (a_tables d) -> mget n db = Some b ->
  call_sql kw c = Ok (s, V) -> Forall (fun v => ~ is_custom v) V -> parse_stmt dl s = Some st ->
  target st = Some n -> names_fine b st = true -> added read fresh b st = Some extra ->
  SqlStmt.exec E (fun _ _ => extra) (shown_db db) V st = Some (D1, r) ->
  Forall (row_fits t) l -> Forall2 rel l (D1 n) ->
  (exists db', data_call db c = Ok db' /\ keeps (with_table D n l) db' /\ forall k, k <> n -> mget k db' = mget k db)
  \/ (data_call db c = Err (DbError 1) /\ ~ legal E d (with_table D n l)).
Proof.
  intros KP Hn Hb CL NC PS TG NF LO EXE F R. unfold DataCalls.data_call. rewrite CL. cbn [obind fst snd].
  destruct (collect_writes V NC) as (ps & ->). cbn [obind]. rewrite PS. unfold change. rewrite TG, Hb, NF, LO, EXE.
  destruct (settled json_text E veq conv read strict fresh EO CS SO d D db n t b l (D1 n) WF RK KP Hn Hb F R) as [(db' & -> & K & O)|[-> NL]]; [left|right; auto].
  exists db'. auto.
Qed.

Notation outcome_of db c D' n :=
  ((exists db', data_call db c = Ok db' /\ keeps D' db' /\ forall k, k <> n -> mget k db' = mget k db)
   \/ (data_call db c = Err (DbError 1) /\ ~ legal E d D')).

(** ** Insert *)
Lemma extra_made t b n cols db : keeps (fun _ => []) [] \/ True -> In (n, t) (a_tables d) -> mget n db = Some b -> table_is strict t b ->
  (forall c, In c (t_cols t) -> c_auto c = true -> In (c_name c) cols \/ exists k, column_takes c k /\ sqlite_write k = Ok (LInteger (fresh b))) ->
  (forall c, In c (t_cols t) -> In (c_name c) cols \/ (c_auto c = true /\ word c = "INTEGER")) ->
  exists extra given, left_out read fresh b cols = Some extra /\ rel given extra /\ generated json_text t cols (fresh b) given.
Proof.
  intros _ Hn Hb TI NF H. unfold left_out. destruct TI as (T1 & T2 & T3 & T4 & T5).
  assert (X : forall ks, incl ks (b_cols b) -> NoDup (map k_name ks) -> exists extra given,
    mapm (fun k => if rowid k then Some (k_name k, VBigInt (fresh b))
            else match k_default k with
                 | Some l => option_map (fun v => (k_name k, as_val v)) (lit_value read l)
                 | None => Some (k_name k, VNull) end)
       (filter (fun k => negb (existsb (String.eqb (k_name k)) cols)) ks) = Some extra
    /\ rel given extra /\ NoDup (map fst given)
    /\ (forall m, In m (map fst given) <-> In m (map k_name ks) /\ ~ In m cols)
    /\ Forall (fun p => given_fits t (fst p) (snd p) /\ sqlite_write (snd p) = Ok (LInteger (fresh b))) given).
  { induction ks as [|k ks IH]; intros I ND.
    - exists [], []. split; [reflexivity|]. split; [constructor|]. split; [constructor|]. split; [intros m; cbn; tauto|constructor].
    - cbn [map] in ND. inversion ND as [|? ? N1 N2]; subst. destruct IH as (extra & gv & M & R & G1 & G2 & G3); [intros x Hx; apply I; now right|assumption|].
      cbn [filter]. destruct (existsb (String.eqb (k_name k)) cols) eqn:Ex; cbn [negb].
      + exists extra, gv. split; [assumption|]. split; [assumption|]. split; [assumption|]. split; [|assumption].
        intros m. rewrite G2. cbn [map In]. apply existsb_name in Ex. split; [tauto|]. intros [[<-|A] B]; [contradiction|tauto].
      + destruct (T4 k (I k (or_introl eq_refl))) as (c & Hc & (D1 & D2 & D3 & D4 & D5)).
        assert (Nin : ~ In (k_name k) cols) by (rewrite <- existsb_name; congruence).
        destruct (H c Hc) as [A|[A W]]; [rewrite <- D1 in A; contradiction|].
        assert (PK : c_pk c = true). { destruct (SF n t Hn) as (_ & _ & F). rewrite Forall_forall in F. now destruct (F c Hc) as (_ & _ & P & _); apply P. }
        assert (RI : rowid k = true) by (unfold rowid; rewrite D4, D2, PK, W; reflexivity).
        destruct (NF c Hc A) as [B|(kv & TK & WK)]; [rewrite <- D1 in B; contradiction|].
        exists ((k_name k, VBigInt (fresh b)) :: extra), ((k_name k, kv) :: gv). cbn [mapm]. rewrite RI, M.
        split; [reflexivity|]. split; [constructor; [|assumption]; split; [reflexivity|]; exists (LInteger (fresh b)); split; [assumption|reflexivity]|].
        cbn [map fst]. split; [constructor; [|assumption]; rewrite G2; tauto|]. split.
        * intros m. cbn [In]. rewrite G2. split; [intros [<-|[A1 A2]]; tauto|intros [[<-|A1] A2]; tauto].
        * constructor; [|assumption]. split; [|assumption]. exists c. cbn. auto. }
  destruct (X (b_cols b) (incl_refl _) T2) as (extra & gv & M & R & G1 & G2 & G3). exists extra, gv. split; [exact M|]. split; [exact R|].
  split; [assumption|]. split; [|assumption]. intros m. rewrite G2. apply and_iff_compat_r. split.
  - intros Hm. apply in_map_iff in Hm as (k & <- & Hk). destruct (T4 k Hk) as (c & Hc & Dc). exists c. split; [assumption|]. symmetry. apply Dc.
  - intros (c & Hc & <-). destruct (T3 c Hc) as (k & Hk & Dk). apply in_map_iff. exists k. split; [apply Dk|assumption].
Qed.

Theorem insert_call D db n cols vs b : keeps D db -> mget n db = Some b ->
  (forall t c, In (n, t) (a_tables d) -> In c (t_cols t) -> c_auto c = true ->
     In (c_name c) cols \/ exists k, column_takes c k /\ sqlite_write k = Ok (LInteger (fresh b))) ->
  call_fits json_text E dl d D (InsertOnly n cols vs) ->
  exists D', asks json_text E d (fresh b) (InsertOnly n cols vs) D D' /\ outcome_of db (InsertOnly n cols vs) D' n.
Proof.
  intros KP Hb NF (t & Hn & ND & G & AL). cbn [call_table] in Hn.
  destruct (kp_tables _ _ _ _ _ _ _ KP n t Hn) as (b' & Hb' & TI & _). rewrite Hb in Hb'. injection Hb' as <-.
  destruct (extra_made t b n cols db (or_intror I) Hn Hb TI (fun c Hc => NF t c Hn Hc) AL) as (extra & gv & LO & R & GN).
  pose proof (Forall2_len _ _ _ G) as L. assert (HC : forall m, In m cols -> has_column t m) by (intros m; now apply (givens_columns t cols vs)).
  eexists. split; [exists t, gv; repeat split; try apply GN; auto|].
  destruct (insert_tokens kw Sqlite n cols (name_ok n t Hn) (col_names_ok n t cols Hn HC) I) as (s & Es & Et & _).
  pose proof (insert_parsed dl kw KW n cols None I) as Pw. cbn [ret_toks] in Pw. rewrite app_nil_r in Pw.
  set (st := match cols with [] => InsertDefaults n None | _ => Insert n cols (params 1 (List.length cols)) Fail None end) in *.
  assert (Gv : added read fresh b st = left_out read fresh b cols) by (unfold st; now destruct cols).
  assert (EXE : SqlStmt.exec E (fun _ _ => extra) (shown_db db) vs st
                = Some (with_table (shown_db db) n (shown_db db n ++ [combine cols vs ++ extra]), None)).
  { unfold st. destruct cols as [|c0 cols0]; [reflexivity|]. apply (insert_meaning E (shown_db db) (fun _ _ => extra) n (c0 :: cols0) vs None L). }
  apply (call_settles D db (InsertOnly n cols vs) n t s vs st b extra (with_table (shown_db db) n (shown_db db n ++ [combine cols vs ++ extra])) None); try assumption.
  - cbn [call_sql]. rewrite Es. reflexivity.
  - now apply (givens_custom t cols).
  - unfold parse_stmt. rewrite Et, Pw. reflexivity.
  - unfold st. now destruct cols.
  - unfold st, names_fine. destruct cols as [|c0 cols0]; [reflexivity|]. rewrite (knows_ok t b _ TI HC), (distinct_NoDup _ ND). reflexivity.
  - now rewrite Gv.
  - apply Forall_app. split; [now apply (kp_fit _ _ _ _ _ _ _ KP)|]. constructor; [|constructor].
    destruct GN as (G1 & G2 & G3). split; [|split].
    + rewrite map_app, map_fst_combine by assumption. apply NoDup_app_disjoint; [assumption..|]. intros m Hm Hg. now apply G2 in Hg.
    + intros m. rewrite map_app, map_fst_combine, in_app_iff, G2 by assumption. split; [intros [A|[A _]]; auto|].
      intros Hm. destruct (in_dec string_dec m cols); tauto.
    + apply Forall_app. split; [now apply givens_pairs|]. eapply Forall_impl; [|exact G3]. now intros p [A _].
  - unfold with_table. rewrite String.eqb_refl. apply Forall2_app; [apply shown_dbs, KP|]. constructor; [|constructor].
    apply Forall2_app; [|exact R]. apply rel_refl. now apply (givens_alike t).
Qed.

(** ** Upsert *)
Lemma nothing_left b cols : (forall k, In k (b_cols b) -> In (k_name k) cols) -> left_out read fresh b cols = Some [].
Proof.
  intros H. unfold left_out. assert (X : filter (fun k => negb (existsb (String.eqb (k_name k)) cols)) (b_cols b) = []).
  { induction (b_cols b) as [|k ks IH]; [reflexivity|]. cbn. assert (Y : existsb (String.eqb (k_name k)) cols = true) by (apply existsb_name, H; now left).
    rewrite Y. cbn. apply IH. intros k' Hk'. apply H. now right. }
  now rewrite X.
Qed.

Theorem upsert_call D db n cols pk vs : keeps D db -> call_fits json_text E dl d D (InsertOrReplace n cols pk vs) ->
  forall z, exists D', asks json_text E d z (InsertOrReplace n cols pk vs) D D' /\ outcome_of db (InsertOrReplace n cols pk vs) D' n.
Proof.
  intros KP (t & Hn & ND & G & AL & (ck & Hck & Nck & Kck) & NE) z. cbn [call_table] in Hn.
  destruct (kp_tables _ _ _ _ _ _ _ KP n t Hn) as (b & Hb & TI & _).
  pose proof (Forall2_len _ _ _ G) as L. assert (HC : forall m, In m cols -> has_column t m) by (intros m; now apply (givens_columns t cols vs)).
  assert (Ipk : In pk cols) by (rewrite <- Nck; now apply AL).
  destruct (field_In pk (combine cols vs)) as (k & Hk); [now rewrite map_fst_combine|].
  eexists. split; [exists k; split; [assumption|reflexivity]|].
  assert (NEc : cols <> []) by (intros ->; destruct Ipk).
  pose proof (shown_dbs D db (kp_rows _ _ _ _ _ _ _ KP)) as SH. pose proof (kp_fit _ _ _ _ _ _ _ KP n t Hn) as FI.
  assert (PS : parse_stmt dl (upsert_sql Sqlite kw n cols pk) = Some (Insert n cols (params 1 (List.length cols))
            (if Nat.ltb 1 (List.length cols) then Update_if pk (combine cols (map excl cols)) else Nothing_if pk) None)).
  { cbn [upsert_sql]. apply (upsert_text_ok dl kw KW EX q_mark (fun _ => TQ) Z.of_nat); try reflexivity; try assumption; try apply q_num;
      [now apply (name_ok n t)| |now apply (col_names_ok n t)]. pose proof (col_names_ok n t cols Hn HC) as F. rewrite Forall_forall in F. now apply F. }
  pose proof (upsert_meaning E (shown_db db) (fun _ _ => []) n pk cols vs k NE L ND Ipk Hk (rel_has cols t (D n) (shown_db db n) FI (SH n) HC)) as EXE.
  assert (EK : existsb (has_key E pk k) (D n) = existsb (has_key E pk k) (shown_db db n)).
  { apply exists_rel; [|apply SH]. intros r x R. now apply (has_key_rel E veq CS). }
  rewrite EK.
  assert (GA : Forall (fun p => alike (snd p) (snd p)) (combine cols vs)) by now apply (givens_alike t).
  match type of EXE with _ = Some (if _ then (?a, _) else (?bb, _)) =>
    assert (EXE' : exists D1, SqlStmt.exec E (fun _ _ => []) (shown_db db) vs (Insert n cols (params 1 (List.length cols))
       (if Nat.ltb 1 (List.length cols) then Update_if pk (combine cols (map excl cols)) else Nothing_if pk) None) = Some (D1, None)
       /\ D1 n = if existsb (has_key E pk k) (shown_db db n) then (if Nat.ltb 1 (List.length cols)
                   then rewrite_rows (has_key E pk k) (assign (combine cols vs)) (shown_db db n) else shown_db db n)
                 else shown_db db n ++ [combine cols vs]) end.
  { destruct (existsb (has_key E pk k) (shown_db db n)).
    - eexists. split; [exact EXE|]. destruct (Nat.ltb 1 (List.length cols)); [|reflexivity]. unfold with_table. now rewrite String.eqb_refl.
    - eexists. split; [exact EXE|]. unfold with_table. rewrite String.eqb_refl. now rewrite app_nil_r. }
  destruct EXE' as (D1 & EX1 & ED1).
  eapply (call_settles D db (InsertOrReplace n cols pk vs) n t _ vs _ b [] D1 None); try eassumption.
  - reflexivity.
  - now apply (givens_custom t cols).
  - reflexivity.
  - cbn [names_fine]. rewrite (knows_ok t b _ TI HC), (distinct_NoDup _ ND). rewrite <- Nck. rewrite <- Nck in *.
    destruct (Nat.ltb 1 (List.length cols)); rewrite (key_ok t b ck TI Hck Kck); [|reflexivity].
    rewrite map_fst_combine by now rewrite map_length. now rewrite (knows_ok t b _ TI HC).
  - cbn [added]. apply nothing_left. intros kk Hkk. destruct TI as (_ & _ & _ & T4 & _). destruct (T4 kk Hkk) as (c & Hc & Dc).
    destruct Dc as (-> & _). now apply AL.
  - destruct (existsb (has_key E pk k) (shown_db db n)).
    + destruct (Nat.ltb 1 (List.length cols)); [|assumption]. apply rewrite_fits; [|assumption]. intros r. now apply assign_fits.
    + apply Forall_app. split; [assumption|]. constructor; [|constructor]. split; [|split].
      * now rewrite map_fst_combine.
      * intros m. rewrite map_fst_combine by assumption. split; [apply HC|]. intros (c & Hc & <-). now apply AL.
      * now apply givens_pairs.
  - rewrite ED1. destruct (existsb (has_key E pk k) (shown_db db n)).
    + destruct (Nat.ltb 1 (List.length cols)); [|apply SH]. apply rewrite_rel; [|now apply assign_rel|apply SH].
      intros r x R. now apply (has_key_rel E veq CS).
    + apply Forall2_app; [apply SH|]. constructor; [|constructor]. now apply rel_refl.
Qed.

(** ** Update *)
Theorem update_call D db n pk k cols vs : keeps D db -> call_fits json_text E dl d D (UpdateRow n pk k cols vs) ->
  forall z, exists D', asks json_text E d z (UpdateRow n pk k cols vs) D D' /\ outcome_of db (UpdateRow n pk k cols vs) D' n.
Proof.
  intros KP (t & Hn & NEc & ND & G & Hpk & NCk) z. cbn [call_table] in Hn.
  destruct (kp_tables _ _ _ _ _ _ _ KP n t Hn) as (b & Hb & TI & _).
  pose proof (Forall2_len _ _ _ G) as L. assert (HC : forall m, In m cols -> has_column t m) by (intros m; now apply (givens_columns t cols vs)).
  pose proof (shown_dbs D db (kp_rows _ _ _ _ _ _ _ KP)) as SH. pose proof (kp_fit _ _ _ _ _ _ _ KP n t Hn) as FI.
  eexists. split; [reflexivity|].
  assert (HC2 : forall m, In m (pk :: cols) -> has_column t m) by (intros m [<-|Hm]; auto).
  pose proof (col_names_ok n t (pk :: cols) Hn HC2) as IDs. inversion IDs as [|? ? IDpk IDcols]; subst.
  destruct (update_tokens kw Sqlite n pk cols (name_ok n t Hn) IDpk NEc IDcols I) as (s & Es & Et & _).
  pose proof (update_parsed dl kw KW n pk cols NEc) as Pw.
  pose proof (update_meaning E (shown_db db) (fun _ _ => []) n pk cols vs k EO L (rel_has (pk :: cols) t (D n) (shown_db db n) FI (SH n) HC2)) as EXE.
  assert (GA : Forall (fun p => alike (snd p) (snd p)) (combine cols vs)) by now apply (givens_alike t).
  eapply (call_settles D db (UpdateRow n pk k cols vs) n t s (update_values vs k) _ b [] _ None); try eassumption.
  - cbn [call_sql]. rewrite Es. reflexivity.
  - unfold update_values. apply Forall_app. split; [now apply (givens_custom t cols)|]. constructor; [assumption|constructor].
  - unfold parse_stmt. rewrite Et, Pw. reflexivity.
  - reflexivity.
  - cbn [names_fine]. rewrite map_fst_combine by (unfold params; now rewrite map_length, seq_length). now apply (knows_ok t b).
  - reflexivity.
  - apply rewrite_fits; [|assumption]. intros r. now apply assign_fits.
  - unfold with_table. rewrite String.eqb_refl. apply rewrite_rel; [|now apply assign_rel|apply SH]. intros r x R. now apply (has_key_rel E veq CS).
Qed.

(** ** Delete *)
Theorem delete_call D db n e : keeps D db -> call_fits json_text E dl d D (DeleteWhere n e) ->
  forall z, exists D', asks json_text E d z (DeleteWhere n e) D D' /\ outcome_of db (DeleteWhere n e) D' n.
Proof.
  intros KP (t & Hn & BF & SU & FO & NC) z. cbn [call_table] in Hn.
  destruct (kp_tables _ _ _ _ _ _ _ KP n t Hn) as (b & Hb & TI & _).
  pose proof (shown_dbs D db (kp_rows _ _ _ _ _ _ _ KP)) as SH. pose proof (kp_fit _ _ _ _ _ _ _ KP n t Hn) as FI.
  eexists. split; [reflexivity|].
  set (x := set_filter e (Stmt.q_new n)).
  assert (QN : query_names_ok dl x [q_table x]).
  { unfold x, query_names_ok. cbn. repeat split; try (now apply (name_ok n t)); try discriminate; try constructor; try assumption; try constructor. now apply (name_ok n t). }
  destruct (delete_tokens dl kw Sqlite x QN I) as (s & Es & Et & _).
  destruct QN as (_ & _ & _ & _ & Hf). destruct (delete_parsed dl kw KW n e Hf) as (w & Rw & Pw).
  pose proof (delete_meaning E (shown_db db) (fun _ _ => []) n e w Rw EO (filter_ok_rel E veq CS D (shown_db db) n (Some e) SH FO)) as EXE.
  eapply (call_settles D db (DeleteWhere n e) n t s (bound_values e) _ b [] _ None); try eassumption.
  - unfold parse_stmt. rewrite Et. change (filter_of x) with e. change (q_table x) with n. rewrite Pw. reflexivity.
  - reflexivity.
  - reflexivity.
  - reflexivity.
  - apply Forall_forall. intros r Hr. apply filter_In in Hr as [Hr _]. rewrite Forall_forall in FI. now apply FI.
  - unfold with_table. rewrite String.eqb_refl. apply filter_rel; [|apply SH]. intros r y R. f_equal. now apply (matches_rel E veq CS).
Qed.

Theorem call_correct D db c b : keeps D db -> numbers_fit json_text fresh d db -> call_fits json_text E dl d D c ->
  mget (call_table c) db = Some b ->
  exists D', asks json_text E d (fresh b) c D D' /\ outcome_of db c D' (call_table c).
Proof.
  intros KP NF CF Hb. destruct c as [n cols vs|n cols pk vs|n pk k cols vs|n e].
  - apply insert_call; try assumption. intros t c Ht Hc A. right. now apply (NF n t b c).
  - now apply upsert_call.
  - now apply update_call.
  - now apply delete_call.
Qed.
End Main.
