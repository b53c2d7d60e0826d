(** Histories of calls, and calls on a database made by migrations. *)
From Verif Require Import Base SqlVal Sql SqlStmt Query QuerySpec Stmt StmtSpec Adb AdbSpec AdbProofs LiteralSpec Ddl DdlSpec
  Backend BackendSpec Turso SqliteSem MigrateSpec SqliteData DataCalls StoredSpec RenderProofs
  MigrateProofs StoredRel StoredProofs StoredMain FsSpec Chain Deploy DeploySpec DeployWalk.

Section History.
Variable json_text : string -> option string.
Variable E : engine.
Variable veq : lvalue -> lvalue -> bool.
Variable conv : bool -> list string -> lvalue -> option lvalue.
Variable read : bool -> string -> f64.
Variable strict : bool.
Variable fresh : etab -> Z.
Variable kw : string -> bool.
Variable dl : dialect.
Hypothesis EO : engine_ok E.
Hypothesis CS : compares_stored E veq.
Hypothesis SO : storage_ok conv strict read.
Hypothesis KW : quotes_enough kw dl.
Hypothesis EX : reserved dl "excluded" = false.
Variable d : ADB.
Hypothesis WF : wf_schema d.
Hypothesis SF : schema_fine d.
Hypothesis RK : references_keys d.
Notation keeps := (keeps json_text E conv strict d).
Notation data_call := (data_call kw dl conv veq read E fresh).
Notation after_call := (after_call kw dl conv veq read E fresh).
Notation after_calls := (after_calls kw dl conv veq read E fresh).

Lemma table_there D db c : keeps D db -> call_fits json_text E dl d D c -> exists b, mget (call_table c) db = Some b.
Proof. intros KP (t & Ht & _). destruct (kp_tables _ _ _ _ _ _ _ KP _ _ Ht) as (b & Hb & _). eauto. Qed.

Theorem calls_correct cs : forall D db, keeps D db ->
  (forall i c, nth_error cs i = Some c -> let db1 := after_calls db (firstn i cs) in
     numbers_fit json_text fresh d db1 /\ forall D1, keeps D1 db1 -> call_fits json_text E dl d D1 c) ->
  exists D', follow json_text E d D cs D' /\ keeps D' (after_calls db cs).
Proof.
  induction cs as [|c cs IH]; intros D db KP H.
  - exists D. split; [constructor|exact KP].
  - destruct (H 0 c eq_refl) as [NF CF]. cbn in NF, CF. pose proof (CF D KP) as CFD.
    destruct (table_there D db c KP CFD) as (b & Hb).
    destruct (call_correct json_text E veq conv read strict fresh kw dl EO CS SO KW EX d WF SF RK D db c b KP NF CFD Hb) as (D1 & AS & [(db1 & DC & K1 & _)|[DC NL]]).
    + assert (EA : after_call db c = db1) by (unfold DataCalls.after_call; now rewrite DC).
      destruct (IH D1 db1 K1) as (D2 & F & K2).
      { intros i c' Hc'. pose proof (H (S i) c' Hc') as X. cbn [firstn] in X. unfold DataCalls.after_calls in X. cbn [fold_left] in X.
        rewrite EA in X. exact X. }
      exists D2. split; [now apply (fo_taken _ _ _ D (fresh b) c D1); [|apply K1|]|]. unfold DataCalls.after_calls. cbn [fold_left]. rewrite EA. exact K2.
    + assert (EA : after_call db c = db) by (unfold DataCalls.after_call; now rewrite DC).
      destruct (IH D db KP) as (D2 & F & K2).
      { intros i c' Hc'. pose proof (H (S i) c' Hc') as X. cbn [firstn] in X. unfold DataCalls.after_calls in X. cbn [fold_left] in X.
        rewrite EA in X. exact X. }
      exists D2. split; [now apply (fo_refused _ _ _ D (fresh b) c D1)|]. unfold DataCalls.after_calls. cbn [fold_left]. rewrite EA. exact K2.
Qed.

(** Later migrations find the database they need. *)
Lemma still_is D' s db' : database_is conv strict d s -> keeps D' db' ->
  (exists n, has_table d n /\ forall k, k <> n -> mget k db' = mget k (dbs_rest s)) ->
  database_is conv strict d {| dbs_rest := db'; dbs_mig := dbs_mig s |}.
Proof.
  intros DI KP (n & (t & Ht) & O). destruct (di_has _ _ _ _ DI n t Ht) as (b & Hb & TI & _). destruct (kp_tables _ _ _ _ _ _ _ KP n t Ht) as (b' & Hb' & TI' & _).
  constructor; cbn [dbs_rest].
  - apply KP.
  - rewrite O; [apply DI|]. intros <-. rewrite (di_apart _ _ _ _ DI) in Hb. discriminate.
  - apply KP.
  - intros m b1 f k Hm Hf. destruct (string_dec m n) as [->|Ne].
    + rewrite Hb' in Hm. injection Hm as <-. apply (di_temporary _ _ _ _ DI n b); [assumption|].
      destruct TI as (_ & _ & _ & _ & T). destruct TI' as (_ & _ & _ & _ & T'). apply T. now apply T'.
    + rewrite O in Hm by assumption. now apply (di_temporary _ _ _ _ DI m b1).
Qed.
End History.

(** * From nothing *)
Section New.
Variable json_text : string -> option string.
Variable E : engine.
Variable conv : bool -> list string -> lvalue -> option lvalue.
Variable strict : bool.

Definition empty_of (d : ADB) (db : edb) : Prop := forall n b, mget n db = Some b -> has_table d n /\ b_rows b = [].
Lemma has_table_dec d n : {has_table d n} + {~ has_table d n}.
Proof.
  destruct (in_dec string_dec n (map fst (a_tables d))) as [H|H]; [left|right].
  - apply in_map_iff in H as ([m t] & <- & H). now exists t.
  - intros (t & Ht). apply H. now apply (in_map fst) in Ht.
Defined.
Lemma migrated_empty a b db db' : migrated conv strict a b db db' -> empty_of a db -> empty_of b db'.
Proof.
  intros (RE & KE & NW & GO & OT) EM n x Hx. destruct (has_table_dec b n) as [Hb|Nb].
  - split; [assumption|]. destruct (has_table_dec a n) as [(t & Ht)|Na].
    + destruct Hb as (u & Hu). destruct (KE n t u Ht Hu) as (y & y' & Y1 & Y2 & K). rewrite Hx in Y2. injection Y2 as <-.
      destruct (EM n y Y1) as [_ Ey]. unfold rows_kept in K. rewrite Ey in K. now inversion K.
    + destruct (NW n Hb Na) as (y & Hy & Ey). rewrite Hx in Hy. injection Hy as <-. exact Ey.
  - exfalso. destruct (has_table_dec a n) as [Ha|Na]; [rewrite (GO n Ha Nb) in Hx; discriminate|].
    rewrite (OT n Na Nb) in Hx. now destruct (EM n x Hx).
Qed.
Lemma walked_empty h i j db db' : walked (migrated conv strict) h i j db db' -> forall d, nth_error h i = Some d -> empty_of d db ->
  exists d', nth_error h j = Some d' /\ empty_of d' db'.
Proof.
  induction 1 as [i db|i j a b db db1 db2 Ha Hb M W IH|i j a b db db1 db2 Ha Hb M W IH]; intros d Hd EM.
  - exists d. auto.
  - rewrite Ha in Hd. injection Hd as <-. apply (IH b Hb). now apply (migrated_empty a b db).
  - rewrite Hb in Hd. injection Hd as <-. apply (IH a Ha). now apply (migrated_empty b a db).
Qed.
Lemma empty_keeps d d' s : database_is conv strict d s -> empty_of d' (dbs_rest s) -> same_schema d' d ->
  keeps json_text E conv strict d (fun _ => []) (dbs_rest s).
Proof.
  intros DI EM [SS _]. constructor.
  - apply DI.
  - apply DI.
  - intros n. destruct (mget n (dbs_rest s)) as [b|] eqn:Eb; [|reflexivity]. destruct (EM n b Eb) as [_ ->]. constructor.
  - constructor.
  - intros n b Hb. left. destruct (EM n b Hb) as [(t & Ht) _]. destruct (SS n t Ht) as (u & Hu & _). now exists u.
  - constructor; [intros; now destruct i|]. intros n t c f r x _ _ _ [].
Qed.
Lemma made_unique steps : forall d a b, made_of d steps a -> made_of d steps b -> a = b.
Proof.
  induction steps as [|[n to] steps IH]; intros d a b A B; inversion A; inversion B; subst; try contradiction; try reflexivity; [eauto|].
  f_equal. eauto.
Qed.
Lemma nth_after {A} (made : list (A * ADB)) i : i <= length made -> nth_error (adb_new :: map snd made) i = Some (schema_after (firstn i made)).
Proof.
  unfold schema_after. revert i. generalize adb_new. induction made as [|[a x] made IH]; intros y [|i] L; cbn in L |- *; try reflexivity; [lia|].
  rewrite IH by lia. cbn. f_equal. destruct (map snd (firstn i made)) as [|z l]; [reflexivity|]. now rewrite !last_cons.
Qed.

End New.

Theorem deployed_keeps json_text E conv {M} (c : Coll M) exec bk steps e :
  follows conv e c exec bk steps -> (forall n to, In (n, to) steps -> wf_schema to) ->
  forall cs plan s', migrate exec bk plan c (conn_on (commands c exec bk cs nothing_yet)) = (Val tt, s') ->
  keeps json_text E conv (strict_of e) (DeploySpec.asked steps) (fun _ => []) (dbs_rest (cn_db s')).
Proof.
  intros F WS cs plan s' H. destruct (F cs) as (_ & G & _). destruct (G plan s' H) as (DI & made' & MO' & R').
  assert (EC : forall s cs, cn_db (snd (migrate exec bk plan c (conn_on (commands c exec bk cs s)))) = commands c exec bk (cs ++ [Deploy_all plan]) s).
  { clear. intros s cs. revert s. induction cs as [|[p|p] cs IH]; intros s; cbn [List.app commands] in *; [reflexivity|apply IH|apply IH]. }
  pose proof (F (cs ++ [Deploy_all plan])) as X. cbv zeta in X. rewrite <- EC in X.
  match type of X with context [snd (migrate ?a ?b ?p ?q ?r)] => change (migrate a b p q r) with (migrate exec bk plan c (conn_on (commands c exec bk cs nothing_yet))) in X end.
  rewrite H in X. cbn [snd] in X. destruct X as ((made & i & MO & L & R & _ & W) & _ & _).
  rewrite (made_unique _ _ _ _ MO' MO) in *. clear MO' made'.
  destruct (walked_empty _ _ _ _ _ _ _ W adb_new eq_refl) as (d' & Hd' & EM). { intros n b Hb. discriminate Hb. }
  rewrite nth_after in Hd' by assumption. injection Hd' as <-.
  assert (EI : firstn i made = made).
  { assert (X : map fst (firstn i made) = map fst made) by (unfold recorded_as in R, R'; destruct (dbs_mig (cn_db s')); congruence).
    apply (f_equal (@List.length string)) in X. rewrite !map_length, firstn_length in X. apply firstn_all2. lia. }
  rewrite EI in EM. apply (empty_keeps json_text E _ _ _ (schema_after made)); [exact DI|exact EM|].
  apply (made_last steps adb_new made ltac:(split; [constructor|intros ? ? []]) WS MO).
Qed.
