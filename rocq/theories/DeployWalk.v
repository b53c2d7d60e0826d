(** Migrations applied to, and undone on, a database one after the other, given what
    each of them does. *)
From Verif Require Import Base SqlVal Adb AdbSpec AdbProofs Backend BackendSpec
  Chain ChainSpec ChainProofs Store StoreSpec StoreProofs FsStore FsSpec Deploy DeploySpec DeploySame DeployMade.

(** The table of applied migrations once the script of a migration has run. *)
Definition bookkeeping (from : option string) (o : option (list string)) : option (list string) :=
  match o, from with None, None => Some [] | _, _ => o end.

Lemma last_cons {A} (x d : A) l : last (x :: l) d = last l x.
Proof. revert x d. induction l as [|y l IH]; intros x d; [reflexivity|]. change (last (x :: y :: l) d) with (last (y :: l) d). rewrite IH. symmetry. now rewrite IH. Qed.
Lemma made_In steps : forall d made x, made_of d steps made -> In x made -> In x steps.
Proof.
  induction steps as [|[n to] steps IH]; intros d made x H; inversion H as [|? ? ? ? ? SS R|? ? ? ? ? N R]; subst.
  - intros [].
  - intros X. right. eauto.
  - intros [X|X]; [now left|right; eauto].
Qed.
Lemma last_In {A} (l : list A) d : In (last l d) l \/ l = [].
Proof. destruct l as [|x l _] using rev_ind; [now right|]. left. rewrite last_last. apply in_or_app. right. now left. Qed.
Lemma made_last steps : forall d made, wf_schema d -> (forall n to, In (n, to) steps -> wf_schema to) -> made_of d steps made ->
  same_schema (last (map snd made) d) (last (map snd steps) d).
Proof.
  induction steps as [|[n to] steps IH]; intros d made W HS H; inversion H as [|? ? ? ? ? SS R|? ? ? ? ? N R]; subst.
  - now apply same_schema_refl.
  - cbn [map snd]. rewrite last_cons. assert (Wt : wf_schema to) by (apply (HS n); now left).
    apply (same_schema_trans _ (last (map snd made) to)).
    + destruct (map snd made) as [|x l] eqn:E; [exact SS|]. rewrite !last_cons. apply same_schema_refl.
      assert (X : In (last l x) (map snd made)).
      { rewrite E. destruct (last_In l x) as [Y| ->]; [now right|now left]. }
      apply in_map_iff in X as ([k t] & <- & X). apply (HS k). right. eapply made_In; eauto.
    + apply IH; [exact Wt|intros k t Hk; apply (HS k); now right|]. eapply made_of_same; eauto.
  - cbn [map snd]. rewrite !last_cons. apply IH; [apply (HS n); now left|intros k t Hk; apply (HS k); now right|exact R].
Qed.

Section Walk.
Context {DB : Type}.
Variable is : ADB -> DBS DB -> Prop.
Variable ok : ADB -> ADB -> Prop.
Variable step : ADB -> ADB -> DB -> DB -> Prop.
Variable rdy : ADB -> ADB -> DB -> Prop.
Variable exec : string -> DBS DB -> outcome (DBS DB).
Context {M : Type} (c : Coll M) (bs : list Backend) (b : Backend).
Notation bk := (b_name b).
Notation scripted := (scripted c bs b).
Notation carried := (carried_by step).
Notation stepped := (walked step).

(** What one migration does, both ways. *)
Hypothesis is_same : forall a d s, same_schema a d -> is a s -> is d s.
Hypothesis up_step : forall from d m to r s s', scripted from d ((m, to) :: r) -> ok d to -> is d s -> applies c exec bk m s s' ->
  step d to (dbs_rest s) (dbs_rest s') /\ is to s' /\
  exists l, bookkeeping from (dbs_mig s) = Some l /\ dbs_mig s' = Some (l ++ [cl_name c m]).
Hypothesis down_step : forall from d m to r s s', scripted from d ((m, to) :: r) -> ok to d -> is to s -> downgrades c exec bk m s s' ->
  step to d (dbs_rest s) (dbs_rest s') /\ is d s' /\
  exists l, dbs_mig s = Some l /\ dbs_mig s' = Some (remove string_dec (cl_name c m) l).

(** * Up *)
Definition names_in (l : list (M * ADB)) : list string := names c (map fst l).
Lemma seq_up q : forall from d s s' p, scripted from d q -> changes ok d (map snd q) -> is d s ->
  records c s p -> (p <> [] \/ from = None) -> seq (applies c exec bk) (map fst q) s s' ->
  carried d (map snd q) (dbs_rest s) (dbs_rest s') /\ is (last (map snd q) d) s' /\ records c s' (p ++ map fst q).
Proof.
  induction q as [|[m to] q IH]; intros from d s s' p SC CF D R F Q.
  - cbn in Q. apply seq_nil_inv in Q. subst s'. cbn. rewrite app_nil_r. split; [constructor|auto].
  - cbn [map fst snd] in *. apply seq_inv in Q as (s1 & A & Q). destruct CF as [CF CFs].
    destruct (up_step from d m to q s s1 SC CF D A) as (MG & D1 & l & BK & R1).
    assert (R' : records c s1 (p ++ [m])).
    { unfold records in *. rewrite R1. unfold names. rewrite map_app. cbn. f_equal. unfold bookkeeping in BK.
      destruct (dbs_mig s) as [rows|]; [destruct from; injection BK as <-; exact R|]. subst p. destruct from; [discriminate|]. injection BK as <-. reflexivity. }
    assert (SC' : scripted (Some (cl_name c m)) to q) by (inversion SC; subst; assumption).
    destruct (IH (Some (cl_name c m)) to s1 s' (p ++ [m]) SC' CFs D1 R') as (CA & D2 & R2); [left; destruct p; discriminate|exact Q|].
    split; [econstructor; eauto|]. split; [now rewrite last_cons|]. now rewrite <- app_assoc in R2.
Qed.

(** * Beginnings and ends of the chain *)
Definition from_after (from : option string) (p : list (M * ADB)) : option string :=
  match rev p with [] => from | (m, _) :: _ => Some (cl_name c m) end.
Lemma from_after_cons from m to p : from_after from ((m, to) :: p) = from_after (Some (cl_name c m)) p.
Proof. unfold from_after. cbn. destruct (rev p) as [|[x y] l]; reflexivity. Qed.
Lemma scripted_split p : forall from d q, scripted from d (p ++ q) -> scripted from d p /\ scripted (from_after from p) (last (map snd p) d) q.
Proof.
  induction p as [|[m to] p IH]; intros from d q H.
  - split; [constructor|exact H].
  - cbn [app] in H. inversion H as [|? ? ? ? ? ? ? ? ? ? ? ? ? ? HR]. subst. destruct (IH _ _ _ HR) as [A B]. split; [econstructor; eauto|].
    rewrite from_after_cons. cbn [map snd]. now rewrite last_cons.
Qed.
Lemma changes_split p : forall d q, changes ok d (p ++ q) -> changes ok d p /\ changes ok (last p d) q.
Proof.
  induction p as [|to p IH]; intros d q H; [split; [exact I|exact H]|]. cbn in H. destruct H as [A B]. destruct (IH _ _ B) as [C D].
  split; [split; assumption|]. now rewrite last_cons.
Qed.
Lemma changes_back_split p : forall d q, changes_back ok d (p ++ q) -> changes_back ok d p /\ changes_back ok (last p d) q.
Proof.
  induction p as [|to p IH]; intros d q H; [split; [exact I|exact H]|]. cbn in H. destruct H as [A B]. destruct (IH _ _ B) as [C D].
  split; [split; assumption|]. now rewrite last_cons.
Qed.

(** * Down *)
Lemma before_snoc (p : list (M * ADB)) m to : before_it (p ++ [(m, to)]) = rev (adb_new :: map snd p).
Proof. unfold before_it. rewrite map_app, app_comm_cons, rev_app_distr. reflexivity. Qed.
Lemma rev_hd (p : list (M * ADB)) : rev (adb_new :: map snd p) = schema_after p :: before_it p.
Proof.
  unfold before_it, schema_after. destruct p as [|[m to] p _] using rev_ind; [reflexivity|].
  rewrite map_app, app_comm_cons, rev_app_distr. cbn [map snd rev app tl]. now rewrite last_last.
Qed.
Lemma after_snoc {A} (p : list (A * ADB)) m to : schema_after (p ++ [(m, to)]) = to.
Proof. unfold schema_after. rewrite map_app. apply last_last. Qed.
Lemma remove_snoc p m : NoDup (names c (p ++ [m])) -> remove string_dec (cl_name c m) (names c (p ++ [m])) = names c p.
Proof.
  unfold names. rewrite map_app. cbn [map]. intros ND. apply NoDup_remove_2 in ND. rewrite app_nil_r in ND.
  rewrite remove_app. cbn. destruct (string_dec (cl_name c m) (cl_name c m)); [|congruence]. rewrite app_nil_r. now apply notin_remove.
Qed.
Lemma seq_down p : forall k s s', scripted None adb_new p -> changes_back ok adb_new (map snd p) ->
  is (schema_after p) s -> records c s (map fst p) -> NoDup (names c (map fst p)) ->
  k <= length p -> seq (downgrades c exec bk) (firstn k (rev (map fst p))) s s' ->
  carried (schema_after p) (firstn k (before_it p)) (dbs_rest s) (dbs_rest s')
  /\ is (schema_after (firstn (length p - k) p)) s'
  /\ records c s' (map fst (firstn (length p - k) p)).
Proof.
  induction p as [|[m to] p IH] using rev_ind; intros k s s' SC CB D R ND L Q.
  - cbn in L. assert (k = 0) by lia. subst k. cbn in Q. apply seq_nil_inv in Q. subst s'. split; [constructor|]. split; [exact D|exact R].
  - destruct k as [|k].
    + cbn in Q. apply seq_nil_inv in Q. subst s'. cbn [firstn]. split; [constructor|]. rewrite Nat.sub_0_r, firstn_all. split; [exact D|exact R].
    + rewrite map_app, rev_app_distr in Q. cbn [map fst rev app firstn] in Q. apply seq_inv in Q as (s1 & A & Q).
      apply scripted_split in SC as [SCp SC]. rewrite map_app in CB. cbn [map snd] in CB. apply changes_back_split in CB as [CBp [CB _]].
      rewrite after_snoc in D. change (last (map snd p) adb_new) with (schema_after p) in *.
      destruct (down_step _ (schema_after p) m to [] s s1 SC CB D A) as (MG & D1 & l & El & El1).
      rewrite app_length in *. cbn [length] in *. rewrite map_app in R, ND. cbn [map fst] in R, ND.
      assert (R1 : records c s1 (map fst p)).
      { unfold records in *. rewrite El in R. rewrite El1, R. f_equal. now apply remove_snoc. }
      assert (ND1 : NoDup (names c (map fst p))).
      { unfold names in *. rewrite map_app in ND. now apply NoDup_app_iff in ND. }
      destruct (IH k s1 s' SCp CBp D1 R1 ND1 ltac:(lia) Q) as (CA & D2 & X).
      rewrite after_snoc, before_snoc, rev_hd. cbn [firstn]. split; [econstructor; eauto|].
      replace (length p + 1 - S k) with (length p - k) by lia. rewrite firstn_app. replace (length p - k - length p) with 0 by lia. cbn [firstn]. rewrite app_nil_r. auto.
Qed.

(** * The commands *)
Lemma migrate_carries plan p q s r s' : coherent c -> chain c (map fst (p ++ q)) -> scripted None adb_new (p ++ q) ->
  changes ok adb_new (map snd (p ++ q)) -> records c s (map fst p) -> is (schema_after p) s ->
  migrate exec bk plan c (conn_on s) = (r, s') ->
  exists k, k <= length q /\ records c (cn_db s') (map fst (p ++ firstn k q))
    /\ carried (schema_after p) (map snd (firstn k q)) (dbs_rest s) (dbs_rest (cn_db s'))
    /\ is (schema_after (p ++ firstn k q)) (cn_db s') /\ (r = Val tt -> k = length q).
Proof.
  intros CO CH SC CF R D H. rewrite map_app in CH.
  destruct (migrate_effect c exec bk plan _ (conn_on s) r s' (map fst q) CO CH (records_pending c _ s (map fst p) (map fst q) CO CH eq_refl R) H) as (k & Q & F & L).
  rewrite map_length in *. rewrite firstn_map in Q. cbn [conn_on cn_db] in Q.
  apply scripted_split in SC as [_ SC]. rewrite map_app in CF. apply changes_split in CF as [_ CF].
  rewrite <- (firstn_skipn k q) in SC, CF. apply scripted_split in SC as [SC _]. rewrite map_app in CF. apply changes_split in CF as [CF _].
  destruct (seq_up (firstn k q) _ (schema_after p) s (cn_db s') (map fst p) SC CF D R) as (CA & D2 & R2); [|exact Q|].
  { destruct p; [right; reflexivity|left; discriminate]. }
  exists k. split; [exact L|]. rewrite map_app. split; [exact R2|]. split; [exact CA|]. split; [|exact F].
  unfold schema_after in *. rewrite map_app. clear - D2. revert D2. generalize (map snd p) as a, (map snd (firstn k q)) as e. generalize adb_new as x.
  intros x a. revert x. induction a as [|y a IH]; intros x e D2; [exact D2|]. cbn [app]. rewrite last_cons in *. now apply IH.
Qed.
Lemma unmigrate_carries plan p q s r s' : coherent c -> chain c (map fst (p ++ q)) -> scripted None adb_new (p ++ q) ->
  changes_back ok adb_new (map snd p) -> records c s (map fst p) -> is (schema_after p) s ->
  unmigrate exec bk plan c (conn_on s) = (r, s') ->
  exists k, k <= length p /\ records c (cn_db s') (map fst (firstn (length p - k) p))
    /\ carried (schema_after p) (firstn k (before_it p)) (dbs_rest s) (dbs_rest (cn_db s'))
    /\ is (schema_after (firstn (length p - k) p)) (cn_db s') /\ (r = Val tt -> k = length p).
Proof.
  intros CO CH SC CB R D H. rewrite map_app in CH. pose proof (chain_NoDup c CO _ CH) as ND.
  destruct (unmigrate_effect c exec bk plan _ (map fst p) (map fst q) (conn_on s) r s' CO CH eq_refl R H) as (k & L & Q & F).
  rewrite map_length in *. apply scripted_split in SC as [SC _]. apply seq_downs in Q.
  assert (ND1 : NoDup (names c (map fst p))) by (unfold names in *; rewrite map_app in ND; now apply NoDup_app_iff in ND).
  destruct (seq_down p k s (cn_db s') SC CB D R ND1 L Q) as (CA & D2 & R2). exists k. auto.
Qed.
(** * Deploying and undoing in any order, as a walk through the schemas *)
Lemma stepped_trans h i j k db db1 db2 : stepped h i j db db1 -> stepped h j k db1 db2 -> stepped h i k db db2.
Proof. intros H. revert k db2. induction H; intros; [assumption|eapply st_next; eauto|eapply st_back; eauto]. Qed.
Lemma carried_up tos : forall h0 a rest db db', carried a tos db db' ->
  stepped (h0 ++ a :: tos ++ rest) (length h0) (length h0 + length tos) db db'.
Proof.
  induction tos as [|to tos IH]; intros h0 a rest db db' H; inversion H as [|? ? ? ? db1 ? MG R]; subst.
  - rewrite Nat.add_0_r. constructor.
  - apply (st_next _ _ _ _ a to _ db1).
    + rewrite nth_error_app2, Nat.sub_diag by lia. reflexivity.
    + rewrite nth_error_app2 by lia. replace (S (length h0) - length h0) with 1 by lia. reflexivity.
    + exact MG.
    + specialize (IH (h0 ++ [a]) to rest db1 db' R). rewrite app_length in IH. cbn [length] in IH.
      rewrite <- app_assoc in IH. cbn [app] in *. replace (length h0 + 1) with (S (length h0)) in IH by lia.
      cbn [length]. replace (length h0 + S (length tos)) with (S (length h0) + length tos) by lia. exact IH.
Qed.
Lemma carried_down k : forall h0 a rest db db', k <= length h0 -> carried a (firstn k (rev h0)) db db' ->
  stepped (h0 ++ a :: rest) (length h0) (length h0 - k) db db'.
Proof.
  induction k as [|k IH]; intros h0 a rest db db' L H.
  - cbn in H. inversion H; subst. rewrite Nat.sub_0_r. constructor.
  - destruct h0 as [|b0 h0 _] using rev_ind; [cbn in L; lia|]. rewrite rev_app_distr in H. cbn [rev app firstn] in H.
    inversion H as [|? ? ? ? db1 ? MG R]; subst. rewrite app_length in *. cbn [length] in *.
    replace (length h0 + 1) with (S (length h0)) by lia. rewrite <- app_assoc. cbn [app].
    apply (st_back _ _ _ _ b0 a _ db1).
    + rewrite nth_error_app2, Nat.sub_diag by lia. reflexivity.
    + rewrite nth_error_app2 by lia. replace (S (length h0) - length h0) with 1 by lia. reflexivity.
    + exact MG.
    + replace (S (length h0) - S k) with (length h0 - k) by lia. apply IH; [lia|exact R].
Qed.
Lemma split_history (p q : list (M * ADB)) : exists h0, length h0 = length p
  /\ adb_new :: map snd (p ++ q) = h0 ++ schema_after p :: map snd q /\ rev h0 = before_it p.
Proof.
  exists (rev (before_it p)). pose proof (rev_hd p) as R.
  assert (E : adb_new :: map snd p = rev (before_it p) ++ [schema_after p]).
  { rewrite <- (rev_involutive (adb_new :: map snd p)), R. reflexivity. }
  split.
  - apply (f_equal (@length ADB)) in E. rewrite app_length in E. cbn [length] in E. rewrite map_length in E. lia.
  - split; [|apply rev_involutive]. rewrite map_app, app_comm_cons, E, <- app_assoc. reflexivity.
Qed.
Lemma commands_walk l cs : coherent c -> chain c (map fst l) -> scripted None adb_new l ->
  changes ok adb_new (map snd l) -> changes_back ok adb_new (map snd l) ->
  forall i s, i <= length l -> records c s (map fst (firstn i l)) -> is (schema_after (firstn i l)) s ->
  exists j, j <= length l /\ records c (commands c exec bk cs s) (map fst (firstn j l))
    /\ is (schema_after (firstn j l)) (commands c exec bk cs s)
    /\ stepped (adb_new :: map snd l) i j (dbs_rest s) (dbs_rest (commands c exec bk cs s)).
Proof.
  intros CO CH SC CF CB. induction cs as [|[plan|plan] cs IH]; intros i s L R D; cbn [commands].
  - exists i. split; [exact L|]. split; [exact R|]. split; [exact D|constructor].
  - destruct (migrate exec bk plan c (conn_on s)) as [r s'] eqn:E. cbn [snd].
    rewrite <- (firstn_skipn i l) in CH, SC, CF.
    destruct (migrate_carries plan (firstn i l) (skipn i l) s r s' CO CH SC CF R D E)
      as (k & Lk & R' & CA & D' & _).
    rewrite skipn_length in Lk.
    assert (EF : firstn i l ++ firstn k (skipn i l) = firstn (i + k) l).
    { rewrite <- (firstn_skipn i l) at 3. rewrite firstn_app. rewrite firstn_firstn, firstn_length. f_equal; f_equal; lia. }
    rewrite EF in R', D'. rewrite firstn_skipn in CH, SC, CF.
    destruct (IH (i + k) (cn_db s') ltac:(lia) R' D') as (j & Lj & A & B & ST).
    exists j. split; [exact Lj|]. split; [exact A|]. split; [exact B|]. eapply stepped_trans; [|exact ST].
    destruct (split_history (firstn i l) (skipn i l)) as (h0 & Lh & Eh & _). rewrite firstn_skipn in Eh. rewrite Eh.
    rewrite firstn_length, Nat.min_l in Lh by lia.
    rewrite <- (firstn_skipn k (skipn i l)) at 1. rewrite map_app.
    pose proof (carried_up _ h0 _ (map snd (skipn k (skipn i l))) _ _ CA) as X.
    rewrite map_length, firstn_length, Lh in X. rewrite skipn_length in X. rewrite Nat.min_l in X by lia. exact X.
  - destruct (unmigrate exec bk plan c (conn_on s)) as [r s'] eqn:E. cbn [snd].
    rewrite <- (firstn_skipn i l) in CH, SC.
    assert (CB' : changes_back ok adb_new (map snd (firstn i l))).
    { rewrite <- (firstn_skipn i l), map_app in CB. now apply changes_back_split in CB as [CB _]. }
    destruct (unmigrate_carries plan (firstn i l) (skipn i l) s r s' CO CH SC CB' R D E)
      as (k & Lk & R' & CA & D' & _).
    rewrite firstn_length, Nat.min_l in * by lia.
    assert (EF : firstn (i - k) (firstn i l) = firstn (i - k) l) by (rewrite firstn_firstn; f_equal; lia).
    rewrite EF in R', D'. rewrite firstn_skipn in CH, SC.
    destruct (IH (i - k) (cn_db s') ltac:(lia) R' D') as (j & Lj & A & B & ST).
    exists j. split; [exact Lj|]. split; [exact A|]. split; [exact B|]. eapply stepped_trans; [|exact ST].
    destruct (split_history (firstn i l) (skipn i l)) as (h0 & Lh & Eh & Er). rewrite firstn_skipn in Eh. rewrite Eh.
    rewrite firstn_length, Nat.min_l in Lh by lia. rewrite <- Er in CA.
    pose proof (carried_down k h0 _ (map snd (skipn i l)) _ _ ltac:(lia) CA) as X. now rewrite Lh in X.
Qed.
Lemma follows_scripted db0 steps l made : is adb_new (untouched db0) ->
  (forall n to, In (n, to) steps -> wf_schema to) -> made_of adb_new steps made ->
  map (fun p => (cl_name c (fst p), snd p)) l = made ->
  coherent c -> chain c (map fst l) -> scripted None adb_new l ->
  changes ok adb_new (map snd made) -> changes_back ok adb_new (map snd made) ->
  follows_by is step db0 c exec bk steps.
Proof.
  intros I0 WS MO EM CO CH SC CF CB cs s.
  assert (ES : map snd made = map snd l) by (subst made; rewrite map_map; reflexivity).
  assert (EN : forall i, map fst (firstn i made) = names c (map fst (firstn i l))).
  { intros i. subst made. rewrite firstn_map. unfold names. now rewrite !map_map. }
  assert (EA : forall i, schema_after (firstn i made) = schema_after (firstn i l)).
  { intros i. subst made. unfold schema_after. rewrite firstn_map, map_map. reflexivity. }
  rewrite ES in CF, CB.
  assert (R0 : records c (untouched db0) (map fst (firstn 0 l))) by reflexivity.
  destruct (commands_walk l cs CO CH SC CF CB 0 (untouched db0) ltac:(lia) R0 I0)
    as (j & Lj & R & D & ST). fold s in R, D, ST.
  assert (RA : forall (x : DBS DB) m, records c x m -> recorded_as x (names c m)).
  { intros x m H. unfold records, recorded_as in *. destruct (dbs_mig x); [exact H|]. now subst m. }
  split; [|split].
  - exists made, j. split; [exact MO|]. split; [subst made; now rewrite map_length|]. split; [rewrite EN; now apply RA|].
    rewrite EA, ES. split; [exact D|exact ST].
  - intros plan s' H. rewrite <- (firstn_skipn j l) in CH, SC, CF.
    destruct (migrate_carries plan (firstn j l) (skipn j l) s (Val tt) s' CO CH SC CF R D H)
      as (k & _ & R' & _ & D' & K). rewrite (K eq_refl), firstn_all, firstn_skipn in R', D'. split.
    + apply (is_same (schema_after l)); [|exact D'].
      unfold schema_after, asked. rewrite <- ES. now apply (made_last steps adb_new made (empty_wf)).
    + exists made. split; [exact MO|]. pose proof (EN (length l)) as X.
      assert (Lm : length l = length made) by (subst made; now rewrite map_length).
      rewrite firstn_all in X. rewrite Lm, firstn_all in X. rewrite X. now apply RA.
  - intros plan s' H. rewrite <- (firstn_skipn j l) in CH, SC.
    assert (CB' : changes_back ok adb_new (map snd (firstn j l))).
    { rewrite <- (firstn_skipn j l), map_app in CB. now apply changes_back_split in CB as [CB _]. }
    destruct (unmigrate_carries plan (firstn j l) (skipn j l) s (Val tt) s' CO CH SC CB' R D H)
      as (k & _ & R' & _ & D' & K). rewrite (K eq_refl), Nat.sub_diag in R', D'. split; [exact D'|exact (RA _ _ R')].
Qed.

(** * Reaching the end *)
Hypothesis up_ready : forall from d m to r s, scripted from d ((m, to) :: r) -> ok d to -> is d s -> rdy d to (dbs_rest s) ->
  (exists l, bookkeeping from (dbs_mig s) = Some l /\ ~ In (cl_name c m) l) -> exists s', applies c exec bk m s s'.
Hypothesis down_ready : forall from d m to r s, scripted from d ((m, to) :: r) -> ok to d -> is to s -> rdy to d (dbs_rest s) ->
  dbs_mig s <> None -> exists s', downgrades c exec bk m s s'.
Lemma seq_up_ready q : forall from d s p, scripted from d q -> changes ok d (map snd q) -> is d s ->
  records c s p -> (p <> [] \/ from = None) -> NoDup (names c (p ++ map fst q)) -> ready_by step rdy d (map snd q) (dbs_rest s) ->
  exists s', seq (applies c exec bk) (map fst q) s s'.
Proof.
  induction q as [|[m to] q IH]; intros from d s p SC CF D R F ND RD.
  - exists s. constructor.
  - cbn [map fst snd] in *. destruct CF as [CF CFs]. destruct RD as [RD RDs].
    destruct (up_ready from d m to q s SC CF D RD) as (s1 & A).
    { unfold records in R. assert (X : ~ In (cl_name c m) (names c p)).
      { unfold names in ND |- *. rewrite map_app in ND. cbn [map] in ND. apply NoDup_remove_2 in ND. intros X. apply ND. apply in_or_app. now left. }
      unfold bookkeeping. destruct (dbs_mig s) as [rows|]; [subst rows; exists (names c p); destruct from; auto|].
      subst p. destruct F as [F|F]; [congruence|]. subst from. exists []. auto. }
    destruct (up_step from d m to q s s1 SC CF D A) as (MG & D1 & l & BK & R1).
    assert (R' : records c s1 (p ++ [m])).
    { unfold records in *. rewrite R1. unfold names. rewrite map_app. cbn. f_equal. unfold bookkeeping in BK.
      destruct (dbs_mig s) as [rows|]; [destruct from; injection BK as <-; exact R|]. subst p. destruct from; [discriminate|]. injection BK as <-. reflexivity. }
    assert (SC' : scripted (Some (cl_name c m)) to q) by (inversion SC; subst; assumption).
    destruct (IH (Some (cl_name c m)) to s1 (p ++ [m]) SC' CFs D1 R') as (s' & Q).
    + left. destruct p; discriminate.
    + now rewrite <- app_assoc.
    + exact (RDs _ MG).
    + exists s'. econstructor; eauto.
Qed.
Lemma seq_down_ready p : forall s, scripted None adb_new p -> changes_back ok adb_new (map snd p) ->
  is (schema_after p) s -> (p <> [] -> dbs_mig s <> None) ->
  ready_by step rdy (schema_after p) (before_it p) (dbs_rest s) ->
  exists s', seq (downgrades c exec bk) (rev (map fst p)) s s'.
Proof.
  induction p as [|[m to] p IH] using rev_ind; intros s SC CB D N RD.
  - exists s. constructor.
  - rewrite map_app, rev_app_distr. cbn [map fst rev app].
    apply scripted_split in SC as [SCp SC]. rewrite map_app in CB. cbn [map snd] in CB. apply changes_back_split in CB as [CBp [CB _]].
    rewrite after_snoc in D, RD. rewrite before_snoc, rev_hd in RD. destruct RD as [RD RDs]. change (last (map snd p) adb_new) with (schema_after p) in *.
    assert (N' : dbs_mig s <> None) by (apply N; destruct p; discriminate).
    destruct (down_ready _ (schema_after p) m to [] s SC CB D RD N') as (s1 & A).
    destruct (down_step _ (schema_after p) m to [] s s1 SC CB D A) as (MG & D1 & l & El & El1).
    destruct (IH s1 SCp CBp D1) as (s' & Q); [congruence|exact (RDs _ MG)|]. exists s'. econstructor; eauto.
Qed.
Lemma migrate_reaches p q s : coherent c -> chain c (map fst (p ++ q)) -> scripted None adb_new (p ++ q) ->
  changes ok adb_new (map snd (p ++ q)) -> records c s (map fst p) -> is (schema_after p) s ->
  ready_by step rdy (schema_after p) (map snd q) (dbs_rest s) ->
  exists s', migrate exec bk no_fault c (conn_on s) = (Val tt, s').
Proof.
  intros CO CH SC CF R D RD. rewrite map_app in CH.
  apply scripted_split in SC as [_ SC]. rewrite map_app in CF. apply changes_split in CF as [_ CF].
  destruct (seq_up_ready q _ (schema_after p) s (map fst p) SC CF D R) as (s' & Q); [|exact (chain_NoDup c CO _ CH)|exact RD|].
  { destruct p; [right; reflexivity|left; discriminate]. }
  destruct (migrate_runs c exec bk _ (conn_on s) (map fst q) s' CO CH (records_pending c _ s (map fst p) (map fst q) CO CH eq_refl R) Q) as (x & E & _). eauto.
Qed.
Lemma unmigrate_reaches p q s : coherent c -> chain c (map fst (p ++ q)) -> scripted None adb_new (p ++ q) ->
  changes_back ok adb_new (map snd p) -> records c s (map fst p) -> is (schema_after p) s ->
  ready_by step rdy (schema_after p) (before_it p) (dbs_rest s) ->
  exists s', unmigrate exec bk no_fault c (conn_on s) = (Val tt, s').
Proof.
  intros CO CH SC CB R D RD. rewrite map_app in CH. apply scripted_split in SC as [SC _].
  destruct (seq_down_ready p s SC CB D) as (s' & Q); [|exact RD|].
  { intros N. unfold records in R. destruct (dbs_mig s); [discriminate|]. destruct p; [congruence|discriminate]. }
  apply seq_downs in Q.
  destruct (unmigrate_runs c exec bk _ (map fst p) (map fst q) (conn_on s) s' CO CH eq_refl R Q) as (x & E & _). eauto.
Qed.
End Walk.
