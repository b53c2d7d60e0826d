(** Proofs about the maintenance commands that also use the database, and about making
    a migration. *)
From Verif Require Import Base SqlVal Adb AdbSpec AdbProofs ResolveSpec Chain ChainSpec ChainProofs.
From Verif Require Import Store StoreSpec StoreProofs FsStore FsSpec FsProofs Cli CliProofs Maint MaintSpec MaintProofs MaintLaid.

Section World.
  Context {S : Type}.
  Variable plan : nat -> fault.

  Lemma cbind_val {A B} (x : @CliM S A) (f : A -> CliM B) w b w2 tr : cbind x f w = (Val b, w2, tr) ->
    exists a w1 t1 t2, x w = (Val a, w1, t1) /\ f a w1 = (Val b, w2, t2).
  Proof.
    unfold cbind. destruct (x w) as [[[a| |] w1] t1]; try discriminate. destruct (f a w1) as [[r2 w2'] t2] eqn:E.
    intros [= -> <- _]. eauto 10.
  Qed.
  Lemma on_files_val {A} (x : FsM A) w (a : A) w1 t : @on_files S A x w = (Val a, w1, t) ->
    exists fs' tr, x (fst w) = (Ok a, fs', tr) /\ w1 = (fs', snd w).
  Proof.
    unfold on_files. destruct (x (fst w)) as [[o fs'] tr]. destruct o; try discriminate. intros [= -> <- _]. eauto.
  Qed.
  Lemma on_read_val {A} (f : FS -> outcome A) w (a : A) w1 t : @on_files S A (fread f) w = (Val a, w1, t) ->
    f (fst w) = Ok a /\ w1 = w.
  Proof.
    intros H. apply on_files_val in H as (fs' & tr & E & ->). apply fread_ok in E as (E & -> & _). split; [exact E|]. now destruct w.
  Qed.
  Lemma on_conn_val {A} (x : FS -> @Run S A) w (a : A) w1 t : on_conn x w = (Val a, w1, t) ->
    exists c', x (fst w) (snd w) = (Val a, c') /\ w1 = (fst w, c').
  Proof. unfold on_conn. destruct (x (fst w) (snd w)) as [r c']. intros [= -> <- _]. eauto. Qed.
  Lemma on_db_val f (s : Conn S) u s' : on_db plan f s = (Val u, s') -> f (cn_db s) = Ok (cn_db s').
  Proof.
    unfold on_db, call. destruct (plan (cn_step s)); try discriminate.
    - cbn. destruct (f (cn_db s)) as [d| |]; cbn; try discriminate. intros [= _ <-]. reflexivity.
    - cbn. destruct (f (cn_db s)) as [d| |]; cbn; discriminate.
  Qed.
  Lemma on_db_runs f (s : Conn S) d : f (cn_db s) = Ok d -> exists s', on_db no_fault f s = (Val tt, s') /\ cn_db s' = d.
  Proof. intros E. unfold on_db, call, no_fault. cbn. rewrite E. cbn. eexists. split; reflexivity. Qed.

  Lemma made_In (made : list (string * ADB)) a m b : map fst made = a ++ m :: b -> exists d, In (m, d) made.
  Proof.
    intros E. assert (H : In m (map fst made)) by (rewrite E; apply in_elt). apply in_map_iff in H as ([m' d] & <- & H). eauto.
  Qed.
  Lemma stored_of fs made m d : laid_store fs made -> In (m, d) made -> stored fs m d.
  Proof.
    intros H Hn. pose proof (ls_laid _ _ H) as L. pose proof (laid_names _ _ H) as ND. clear H.
    remember ([] : list string) as e. clear Heqe. revert Hn ND. induction L as [|e dp n d' r LO LR IH]; intros Hn ND; [destruct Hn|].
    cbn [map fst] in ND. apply NoDup_cons_iff in ND as [N ND]. destruct Hn as [[= -> ->]|Hn]; [apply LO|auto].
  Qed.

  Lemma collapse_effect ls gb name fs (c : Conn S) made bs u fs' c' tr : listing ls -> laid_store fs made -> plain_root fs ->
    name <> "current"%string -> latest_backends gb fs = Ok bs -> NoDup (map b_name bs) ->
    cli_collapse ls gb plan name (fs, c) = (Val u, (fs', c'), tr) ->
    exists m d rows, dbs_mig (cn_db c) = Some rows /\ last_recorded (fs_coll fs) rows (map fst made) (Some m) /\ In (m, d) made /\
      laid_store fs' [(name, d)] /\ has_scripts fs' bs [] adb_new [(name, d)] /\
      cn_db c' = {| dbs_rest := dbs_rest (cn_db c); dbs_mig := Some [name] |} /\
      (forall x, x <> name -> mget x (fs_dirs fs') = if String.eqb x "current" then mget x (fs_dirs fs) else None).
  Proof.
    intros PL H PR NC EB NB R. unfold cli_collapse in R.
    apply cbind_val in R as (all & w1 & t1 & t2 & E1 & R). apply on_read_val in E1 as [E1 ->]. cbn [fst snd] in E1.
    rewrite (laid_all _ _ H) in E1. injection E1 as <-.
    apply cbind_val in R as (lat & w1 & t3 & t4 & E1 & R). apply on_read_val in E1 as [E1 ->]. cbn [fst snd] in E1. injection E1 as <-.
    destruct (map fst made) as [|ini rest] eqn:EM; [discriminate|]. rewrite <- EM in *.
    destruct (fs_latest fs) as [lat|] eqn:EL; [|discriminate].
    destruct (String.eqb ini lat); [discriminate|].
    apply cbind_val in R as (bs' & w1 & t5 & t6 & E1 & R). apply on_read_val in E1 as [E1 ->]. cbn [fst snd] in E1.
    rewrite EB in E1. injection E1 as <-.
    apply cbind_val in R as (ap & w1 & t7 & t8 & E1 & R). apply on_conn_val in E1 as (c1 & E1 & ->). cbn [fst snd] in *.
    destruct (last_applied_effect _ _ _ _ _ _ (fs_coherent fs) (ls_chain _ _ H) E1) as [D1 LR].
    destruct ap as [m|]; [|discriminate].
    destruct LR as (a & b & EA & RW & RN).
    destruct (made_In _ _ _ _ EA) as [d Hd]. pose proof (stored_of _ _ _ _ H Hd) as SD.
    assert (RR : exists rows, dbs_mig (cn_db c) = Some rows).
    { unfold rows in RW. destruct (dbs_mig (cn_db c)); [eauto|destruct RW]. }
    destruct RR as [rows ER].
    apply cbind_val in R as (ld & w1 & t9 & t10 & E2 & R). apply on_files_val in E2 as (fs1 & t11 & E2 & ->). cbn [fst snd] in *.
    rewrite (db_reads ls PL m fs d (st_dir _ _ _ SD) (stored_schema _ _ _ (ls_ok _ _ H) SD)) in E2. injection E2 as <- <- _.
    apply cbind_val in R as (v & w1 & t12 & t13 & E3 & R). unfold cli_clear in E3.
    apply cbind_val in E3 as (v2 & w2 & t14 & t15 & E3 & E4). apply on_files_val in E3 as (fs2 & t16 & E3 & ->). cbn [fst snd] in *.
    destruct (delete_migrations_run ls fs PL (ls_ok _ _ H) PR) as (fs2' & t17 & E3' & OK2 & ST2 & GI2 & SO2).
    rewrite E3' in E3. injection E3 as _ -> _.
    apply on_conn_val in E4 as (c2 & E4 & ->). cbn [fst snd] in *. apply on_db_val in E4. unfold forget_all in E4. rewrite D1, ER in E4. injection E4 as E4.
    pose proof (laid_fresh fs2 (conj OK2 ST2)) as H2.
    assert (EL2 : fs_latest fs2 = None) by (rewrite (laid_latest _ _ H2); reflexivity).
    assert (BL : blank name fs2).
    { apply blank_absent. intros [dir X]. rewrite SO2 in X. rewrite (proj2 (String.eqb_neq _ _) NC) in X. discriminate. }
    apply cbind_val in R as (bb & w1 & t18 & t19 & E5 & R). apply on_files_val in E5 as (fs3 & t20 & E5 & ->). cbn [fst snd] in *.
    apply cbind_val in R as (nw & w1 & t21 & t22 & E6 & R). apply on_read_val in E6 as [E6 ->]. cbn [fst snd] in E6. injection E6 as <-.
    destruct bb.
    2:{ exfalso. destruct (fs_not_created ls bs name None d fs2 adb_new fs3 _ OK2 PL eq_refl (st_wf _ _ _ SD) E5) as [-> _].
        rewrite EL2 in R. discriminate. }
    pose proof E5 as E5'. rewrite <- EL2 in E5'.
    destruct (laid_made ls bs name fs2 [] d fs3 _ PL NB H2 BL (fun x => x) NC (st_wf _ _ _ SD) (st_settled _ _ _ SD) E5')
      as (d' & SS & LS & LL & Ed & SO3 & BK & SC & FO).
    assert (d' = d) as ->.
    { apply Ed; [apply SD|]. intros x t _ (t0 & [] & _). }
    rewrite LL in R. apply on_conn_val in R as (c3 & R & E7). cbn [fst snd] in *. injection E7 as -> ->.
    apply on_db_val in R. apply insert_mig_spec in R as (l0 & Q1 & _ & Q3). rewrite <- E4 in Q1, Q3. cbn [dbs_mig dbs_rest] in *. injection Q1 as <-.
    exists m, d, rows. split; [exact ER|]. split.
    { exists a, b. split; [exact EA|]. unfold ChainProofs.rows in *. rewrite ER in RW. split; [exact RW|].
      intros x Hx. pose proof (RN x Hx) as X. now rewrite ER in X. }
    split; [exact Hd|]. split; [exact LS|]. split.
    { cbn [last map] in SC. rewrite EL2 in SC. constructor; [exact BK|exact SC|exact FO|constructor]. }
    split; [exact Q3|]. intros x Nx. rewrite SO3 by exact Nx. apply SO2.
  Qed.

  Lemma cbind_runs {A B} (x : @CliM S A) (f : A -> CliM B) w a w1 t1 : x w = (Val a, w1, t1) ->
    (exists w2 t2 b, f a w1 = (Val b, w2, t2)) -> exists w2 t2 b, cbind x f w = (Val b, w2, t2).
  Proof. intros E (w2 & t2 & b & R). unfold cbind. rewrite E, R. eauto. Qed.
  Lemma on_files_runs {A} (x : FsM A) fs (c : Conn S) (a : A) fs' tr : x fs = (Ok a, fs', tr) ->
    on_files x (fs, c) = (Val a, (fs', c), map (fun f => (f, c)) tr).
  Proof. intros E. unfold on_files. cbn [fst snd]. now rewrite E. Qed.
  Lemma on_conn_runs {A} (x : FS -> @Run S A) fs (c : Conn S) (a : A) c' : x fs c = (Val a, c') ->
    on_conn x (fs, c) = (Val a, (fs, c'), [(fs, c')]).
  Proof. intros E. unfold on_conn. cbn [fst snd]. now rewrite E. Qed.
End World.

Lemma last_applied_is {S} fs made (c : Conn S) rows o : laid_store fs made -> dbs_mig (cn_db c) = Some rows ->
  last_recorded (fs_coll fs) rows (map fst made) o ->
  exists c', last_applied no_fault (fs_coll fs) c = (Val o, c') /\ cn_db c' = cn_db c.
Proof.
  intros H ER LR. destruct (last_applied_runs (fs_coll fs) (map fst made) c (fs_coherent fs) (ls_chain _ _ H)) as (o' & c1 & E & D & LR').
  exists c1. split; [|exact D]. rewrite E. repeat f_equal. unfold ChainProofs.rows in LR'. rewrite ER in LR'.
  eapply last_recorded_fun; [|exact LR'|exact LR]. apply chain_NoDup; [apply fs_coherent|apply H].
Qed.
Lemma laid_two fs made p q : laid_store fs made -> made = p :: q -> q <> [] ->
  exists i l, map fst made = i :: map fst q /\ fs_latest fs = Some l /\ String.eqb i l = false.
Proof.
  intros H E Nq. pose proof (laid_names _ _ H) as ND. pose proof (laid_latest _ _ H) as EL.
  destruct q as [|y q _] using rev_ind; [congruence|]. subst made. exists (fst p), (fst y). split; [reflexivity|].
  change (p :: q ++ [y]) with ((p :: q) ++ [y]) in EL. rewrite map_app in EL. cbn [map fst] in EL.
  change (fst p :: map fst q) with (map fst (p :: q)) in EL.
  rewrite EL, last_some. split; [reflexivity|].
  cbn [map fst] in ND. rewrite map_app in ND. cbn [map fst] in ND. apply NoDup_cons_iff in ND as [N _].
  apply String.eqb_neq. intros E. apply N, in_or_app. right. rewrite E. now left.
Qed.

Lemma collapse_runs {S} ls gb name fs (c : Conn S) made bs rows m d : listing ls -> laid_store fs made -> plain_root fs ->
  name <> "current"%string -> latest_backends gb fs = Ok bs -> NoDup (map b_name bs) -> 2 <= length made ->
  dbs_mig (cn_db c) = Some rows -> last_recorded (fs_coll fs) rows (map fst made) (Some m) -> In (m, d) made ->
  ~ same_schema adb_new d ->
  (forall b, In b bs -> exists up down, scripts_of bs None adb_new d b up down /\ up <> ""%string /\ down <> ""%string) ->
  exists fs' c' tr, cli_collapse ls gb no_fault name (fs, c) = (Val tt, (fs', c'), tr).
Proof.
  intros PL H PR NC EB NB L2 ER LR Hd NS SC.
  assert (X : exists w tr b, cli_collapse ls gb no_fault name (fs, c) = (Val b, w, tr)).
  2:{ destruct X as ([fs' c'] & tr & [] & X). eauto. }
  destruct made as [|p [|p2 q]] eqn:EMd; [cbn in L2; lia..|]. rewrite <- EMd in *.
  destruct (laid_two fs made p (p2 :: q) H EMd ltac:(discriminate)) as (i & l & EM & EL & EI).
  unfold cli_collapse. eapply cbind_runs; [apply on_files_runs; unfold fread; rewrite (laid_all _ _ H); reflexivity|].
  eapply cbind_runs; [apply on_files_runs; unfold fread; rewrite EL; reflexivity|]. rewrite EM. rewrite EI.
  eapply cbind_runs; [apply on_files_runs; unfold fread; rewrite EB; reflexivity|].
  destruct (last_applied_is fs made c rows (Some m) H ER LR) as (c1 & E1 & D1).
  eapply cbind_runs; [apply on_conn_runs; exact E1|]. cbv beta iota.
  pose proof (stored_of _ _ _ _ H Hd) as SD.
  eapply cbind_runs; [apply on_files_runs, (db_reads ls PL m fs d (st_dir _ _ _ SD) (stored_schema _ _ _ (ls_ok _ _ H) SD))|].
  destruct (delete_migrations_run ls fs PL (ls_ok _ _ H) PR) as (fs2 & t17 & E3 & OK2 & ST2 & GI2 & SO2).
  destruct (on_db_runs forget_all c1 {| dbs_rest := dbs_rest (cn_db c); dbs_mig := Some [] |}) as (c2 & E4 & D2).
  { unfold forget_all. now rewrite D1, ER. }
  eapply cbind_runs.
  { unfold cli_clear, cbind. rewrite (on_files_runs _ _ _ _ _ _ E3), (on_conn_runs _ fs2 c1 tt c2 E4). reflexivity. }
  pose proof (laid_fresh fs2 (conj OK2 ST2)) as H2.
  assert (EL2 : fs_latest fs2 = None) by (rewrite (laid_latest _ _ H2); reflexivity).
  assert (BL : blank name fs2).
  { apply blank_absent. intros [dir X]. rewrite SO2 in X. rewrite (proj2 (String.eqb_neq _ _) NC) in X. discriminate. }
  destruct (create_runs ls bs name None d fs2 adb_new [] OK2 PL eq_refl (ls_state _ _ H2) (ls_chain _ _ H2)) as (fs3 & t3 & E5); auto.
  { discriminate. }
  { destruct BL as [o BL]. destruct BL as [BI _]. eauto. }
  { apply SD. }
  eapply cbind_runs; [apply on_files_runs, E5|].
  pose proof E5 as E5'. rewrite <- EL2 in E5'.
  assert (LL : fs_latest fs3 = Some name).
  { destruct (laid_made ls bs name fs2 [] d fs3 _ PL NB H2 BL (fun x => x) NC (st_wf _ _ _ SD) (st_settled _ _ _ SD) E5')
      as (d' & _ & _ & LL & _). exact LL. }
  eapply cbind_runs; [apply on_files_runs; unfold fread; rewrite LL; reflexivity|]. cbv beta iota.
  destruct (on_db_runs (insert_mig name) c2 {| dbs_rest := dbs_rest (cn_db c); dbs_mig := Some [name] |}) as (c3 & E6 & D3).
  { apply insert_mig_spec. exists []. rewrite D2. cbn. auto. }
  rewrite (on_conn_runs _ fs3 c2 tt c3 E6). eauto.
Qed.

(** * Detaching *)
Lemma detach_command {S} plan connected fs (c : Conn S) made n d r fs' c' tr : laid_store fs (made ++ [(n, d)]) ->
  cli_detach plan connected (fs, c) = (r, (fs', c'), tr) ->
  cn_db c' = cn_db c /\ fs_dirs fs' = fs_dirs fs /\
  match r with
  | Val _ => made <> [] /\ laid_store fs' made /\
      (connected = true -> ~ last_recorded (fs_coll fs) (ChainProofs.rows (cn_db c)) (map fst made ++ [n]) (Some n))
  | _ => fs' = fs
  end.
Proof.
  intros H R. unfold cli_detach in R. unfold cbind at 1 in R. unfold on_files at 1, fread at 1 in R. cbn [fst snd] in R.
  rewrite (laid_all _ _ H) in R. cbn [of_outcome map] in R.
  unfold cbind at 1 in R. unfold on_files at 1, fread at 1 in R. cbn [fst snd] in R. cbn [of_outcome map] in R.
  pose proof (laid_latest _ _ H) as EL. rewrite map_app in R, EL. cbn [map fst] in R, EL. rewrite last_some in EL. rewrite EL in R.
  assert (CH : chain (fs_coll fs) (map fst made ++ [n])) by (pose proof (ls_chain _ _ H) as X; now rewrite map_app in X).
  destruct (map fst made ++ [n]) as [|i rest] eqn:EM; [destruct (map fst made); discriminate|].
  destruct (String.eqb i n) eqn:Ei.
  { unfold exits in R. injection R as <- <- <- _. auto. }
  assert (Nm : made <> []).
  { intros ->. cbn in EM. injection EM as <- _. now rewrite String.eqb_refl in Ei. }
  destruct (detach_effect fs made n d (fst (fst (fs_detach fs))) (snd (fst (fs_detach fs))) (snd (fs_detach fs)) H Nm) as (E1 & LS & SD).
  { now destruct (fs_detach fs) as [[? ?] ?]. }
  assert (Q : forall (c1 : Conn S), on_files fs_detach (fs, c1) =
     (Val tt, (snd (fst (fs_detach fs)), c1), map (fun f => (f, c1)) (snd (fs_detach fs)))).
  { intros c1. unfold on_files. cbn [fst snd]. destruct (fs_detach fs) as [[o1 f1] t1]. cbn [fst snd] in *. now rewrite E1. }
  unfold cbind at 1 in R. destruct connected.
  - unfold on_conn in R. cbn [fst snd] in R. destruct (last_applied plan (fs_coll fs) c) as [ra c1] eqn:EA.
    destruct (last_applied_effect _ _ _ _ _ _ (fs_coherent fs) CH EA) as [D1 LR].
    destruct ra as [o|e|].
    + destruct (match o with Some m => String.eqb m n | None => false end) eqn:Eo.
      { unfold exits in R. injection R as <- <- <- _. auto. }
      rewrite Q in R. injection R as <- <- <- _. split; [exact D1|]. split; [exact SD|]. split; [exact Nm|]. split; [exact LS|].
      intros _ X. assert (o = Some n) as ->.
      { eapply last_recorded_fun; [|exact LR|exact X]. apply chain_NoDup; [apply fs_coherent|exact CH]. }
      now rewrite String.eqb_refl in Eo.
    + injection R as <- <- <- _. auto.
    + injection R as <- <- <- _. auto.
  - unfold cret in R. rewrite Q in R. injection R as <- <- <- _. split; [reflexivity|]. split; [exact SD|]. split; [exact Nm|].
    split; [exact LS|]. discriminate.
Qed.
Lemma detach_runs {S} connected fs (c : Conn S) made n d : laid_store fs (made ++ [(n, d)]) -> made <> [] ->
  (connected = true -> ~ last_recorded (fs_coll fs) (ChainProofs.rows (cn_db c)) (map fst made ++ [n]) (Some n)) ->
  exists fs' c' tr, cli_detach no_fault connected (fs, c) = (Val tt, (fs', c'), tr).
Proof.
  intros H Nm NA.
  assert (X : exists w tr b, cli_detach no_fault connected (fs, c) = (Val b, w, tr)).
  2:{ destruct X as ([fs' c'] & tr & [] & X). eauto. }
  assert (CH : chain (fs_coll fs) (map fst made ++ [n])) by (pose proof (ls_chain _ _ H) as X; now rewrite map_app in X).
  destruct made as [|p q]; [congruence|].
  destruct (laid_two fs ((p :: q) ++ [(n, d)]) p (q ++ [(n, d)]) H eq_refl) as (i & l & EM & EL & EI); [now destruct q|].
  assert (l = n) as ->.
  { pose proof (laid_latest _ _ H) as E. rewrite map_app in E. cbn [map fst] in E. change (fst p :: map fst q) with (map fst (p :: q)) in E.
    rewrite last_some in E. congruence. }
  unfold cli_detach. eapply cbind_runs; [apply on_files_runs; unfold fread; rewrite (laid_all _ _ H); reflexivity|].
  eapply cbind_runs; [apply on_files_runs; unfold fread; rewrite EL; reflexivity|]. rewrite EM. rewrite EI.
  destruct (detach_effect fs (p :: q) n d (fst (fst (fs_detach fs))) (snd (fst (fs_detach fs))) (snd (fs_detach fs)) H Nm) as (E1 & LS & SD).
  { now destruct (fs_detach fs) as [[? ?] ?]. }
  assert (Q : forall (c1 : Conn S), on_files fs_detach (fs, c1) =
     (Val tt, (snd (fst (fs_detach fs)), c1), map (fun f => (f, c1)) (snd (fs_detach fs)))).
  { intros c1. unfold on_files. cbn [fst snd]. destruct (fs_detach fs) as [[o1 f1] t1]. cbn [fst snd] in *. now rewrite E1. }
  destruct connected.
  - destruct (last_applied_runs (fs_coll fs) _ c (fs_coherent fs) CH) as (o & c1 & EA & D1 & LR).
    eapply cbind_runs; [apply on_conn_runs, EA|]. destruct o as [m|].
    + destruct (String.eqb m n) eqn:Em; [|rewrite Q; eauto]. apply String.eqb_eq in Em as ->. exfalso. now apply NA.
    + rewrite Q. eauto.
  - eapply cbind_runs; [reflexivity|]. cbv beta iota. rewrite Q. eauto.
Qed.

(** * Backends *)
Lemma find_backends_iff gb l bs : find_backends gb l = Ok bs <-> Forall2 (fun n b => gb n = Some b) l bs.
Proof.
  revert bs. induction l as [|n l IH]; intros bs; cbn [find_backends].
  - split; [intros [= <-]; constructor|]. inversion 1. reflexivity.
  - destruct (gb n) as [b|] eqn:E.
    + destruct (find_backends gb l) as [bs'| |] eqn:F; cbn [obind].
      * split.
        -- intros [= <-]. constructor; [exact E|]. now apply IH.
        -- intros X. inversion X as [|? ? ? r A B]; subst. apply IH in B. congruence.
      * split; [discriminate|]. intros X. inversion X as [|? ? ? r A B]; subst. apply IH in B. discriminate.
      * split; [discriminate|]. intros X. inversion X as [|? ? ? r A B]; subst. apply IH in B. discriminate.
    + split; [discriminate|]. intros X. inversion X; subst. congruence.
Qed.
Lemma uses_iff gb fs bs : uses_backends gb fs bs <-> latest_backends gb fs = Ok bs.
Proof.
  unfold uses_backends, latest_backends. split.
  - intros (m & i & -> & -> & Ne & F). cbn [obind]. destruct (in_backends i) as [|x r] eqn:E; [congruence|]. now apply find_backends_iff.
  - destruct (fs_latest fs) as [m|]; [|discriminate]. destruct (read_info m fs) as [i| |] eqn:EI; cbn [obind]; try discriminate.
    destruct (in_backends i) as [|x r] eqn:E; [discriminate|]. intros F. exists m, i. rewrite E. split; [reflexivity|]. split; [exact EI|].
    split; [discriminate|]. now apply find_backends_iff.
Qed.
Lemma uses_names gb fs bs m i : backends_ok gb -> uses_backends gb fs bs -> fs_latest fs = Some m -> read_info m fs = Ok i ->
  map b_name bs = in_backends i.
Proof.
  intros OK (m' & i' & E & E' & _ & F) L I. assert (m' = m) as -> by congruence. assert (i' = i) as -> by congruence. clear - OK F.
  induction F as [|n b l r E F IH]; cbn [map]; [reflexivity|]. now rewrite IH, (OK _ _ E).
Qed.

(** * Making a migration *)
Lemma laid_from_latest fs made : laid_store fs made -> from_schema fs (fs_latest fs) (last (map snd made) adb_new).
Proof.
  intros H. rewrite (laid_latest _ _ H). destruct made as [|[n d] r _] using rev_ind; [reflexivity|].
  rewrite !(map_app _ r). cbn [map fst snd]. rewrite last_some, last_last. cbn [from_schema].
  eapply stored_of; [exact H|]. apply in_or_app. right. now left.
Qed.
Lemma current_reads ls fs cur : listing ls -> fs_ok fs -> current_schema fs cur -> exists fs1 t, fs_db ls "current" fs = (Ok cur, fs1, t) /\
  fs_ok fs1 /\ fs_state fs1 = fs_state fs /\ fs_gitignore fs1 = fs_gitignore fs /\
  (forall m, m <> "current"%string -> mget m (fs_dirs fs1) = mget m (fs_dirs fs)) /\
  (forall m, has_dir fs m -> mget m (fs_dirs fs1) = mget m (fs_dirs fs)).
Proof.
  intros PL OK C. unfold current_schema in C. destruct (fs_get fs "current") as [x|] eqn:E.
  - assert (D : has_dir fs "current").
    { unfold fs_get in E. destruct (mget _ (fs_dirs fs)) as [dir|] eqn:G; [|discriminate]. now exists dir. }
    exists fs. eexists. rewrite (db_reads ls PL _ fs cur D C). repeat split; auto; apply OK.
  - subst cur. unfold fs_get in E. destruct (mget "current"%string (fs_dirs fs)) eqn:G; [discriminate|].
    unfold fs_db, fbind, ensure_dir, fstep, fread. rewrite G.
    set (fs1 := {| fs_dirs := mput "current"%string [] (fs_dirs fs); fs_state := fs_state fs; fs_gitignore := fs_gitignore fs |}).
    assert (GN : mget "current"%string (fs_dirs fs1) = Some []) by apply mget_mput_eq, OK.
    assert (RD : fs_read_db ls "current" fs1 = Ok adb_new).
    { unfold fs_read_db, read_info, get_file, dir_files. rewrite GN. cbn [mget obind info_new in_bases ofold mkeys map].
      assert (ls [] = []) as ->.
      { apply Permutation.Permutation_nil, Permutation.Permutation_sym, PL. }
      reflexivity. }
    rewrite RD. exists fs1. eexists. split; [reflexivity|]. split.
    { split; [apply mput_sorted, OK|]. intros d dir Hd. cbn [fs1 fs_dirs] in Hd. destruct (String.eqb d "current") eqn:Ed.
      - apply String.eqb_eq in Ed as ->. rewrite mget_mput_eq in Hd by apply OK. injection Hd as <-. constructor.
      - apply String.eqb_neq in Ed. rewrite mget_mput_ne in Hd by (apply OK || congruence). now apply OK in Hd. }
    split; [reflexivity|]. split; [reflexivity|]. split.
    + intros m Nm. cbn. rewrite mget_mput_ne; [reflexivity|apply OK|exact Nm].
    + intros m [dir Hm]. cbn. rewrite mget_mput_ne; [reflexivity|apply OK|]. intros ->. congruence.
Qed.

Lemma make_effect ls gb spec name fs made cur bs o fs' tr : listing ls -> laid_store fs made -> current_schema fs cur ->
  wf_schema cur -> settled cur -> fs_get fs name = None -> name <> "current"%string ->
  load_backends gb spec fs = Ok bs -> NoDup (map b_name bs) ->
  cli_make ls gb spec name fs = (Ok o, fs', tr) ->
  (forall m, m <> name -> m <> "current"%string -> mget m (fs_dirs fs') = mget m (fs_dirs fs)) /\
  if o then ~ same_schema (last (map snd made) adb_new) cur /\
       has_scripts fs' bs (map fst made) (last (map snd made) adb_new) [(name, cur)] /\
       exists d, same_schema d cur /\ laid_store fs' (made ++ [(name, d)])
  else same_schema (last (map snd made) adb_new) cur /\ laid_store fs' made.
Proof.
  intros PL H C Wc Sc Fr NC EB NB R. unfold cli_make in R.
  apply fbind_ok in R as (all & f0 & t1 & t2 & E1 & R & _). apply fread_ok in E1 as (E1 & -> & _). rewrite (laid_all _ _ H) in E1. injection E1 as <-.
  destruct (existsb _ _) eqn:EX; [discriminate|].
  apply fbind_ok in R as (bs' & f0 & t3 & t4 & E1 & R & _). apply fread_ok in E1 as (E1 & -> & _). rewrite EB in E1. injection E1 as <-.
  apply fbind_ok in R as (l & f0 & t5 & t6 & E1 & R & _). apply fread_ok in E1 as (E1 & -> & _). injection E1 as <-.
  unfold fs_create in R. destruct (current_reads ls fs cur PL (ls_ok _ _ H) C) as (fs1 & t7 & E2 & OK1 & ST1 & GI1 & O1 & K1).
  apply fbind_ok in R as (to & f0 & t8 & t9 & E1 & R & _). rewrite E2 in E1. injection E1 as <- <- _.
  assert (H1 : laid_store fs1 made).
  { apply (laid_same fs); auto.
    - intros n Hn. destruct Hn as [dir Hn]. exists dir. now rewrite K1 by (now exists dir).
    - intros n Hn. apply K1. eapply chain_has; [apply H|exact Hn]. }
  assert (EL : fs_latest fs1 = fs_latest fs) by (rewrite (laid_latest _ _ H1), (laid_latest _ _ H); reflexivity).
  rewrite <- EL in R.
  assert (Nd : ~ has_dir fs1 name).
  { intros [dir D]. rewrite O1 in D by exact NC. unfold fs_get in Fr. now rewrite D in Fr. }
  assert (Nn : ~ In name (map fst made)).
  { intros Hn. apply Nd. eapply chain_has; [apply H1|exact Hn]. }
  assert (FS1 : from_schema fs1 (fs_latest fs1) (last (map snd made) adb_new)).
  { apply laid_from_latest. exact H1. }
  destruct o.
  - destruct (laid_made ls bs name fs1 made cur fs' t9 PL NB H1 (blank_absent _ _ Nd) Nn NC Wc Sc R)
      as (d' & SS & LS & LL & _ & SO & BK & SC & FO).
    split; [intros m Nm Nc; rewrite SO by exact Nm; now apply O1|]. split.
    { destruct (create_ran ls bs name _ cur fs1 _ fs' t9 OK1 PL FS1 R) as (calls & u & fs6 & t10 & t11 & EC & _ & _).
      apply create_some in EC as (ops & ED & Ne & _). intros SS'. rewrite diff_eq in ED. injection ED as ED. apply Ne. rewrite <- ED.
      apply diff_empty_iff; auto. exact (from_schema_wf _ _ _ FS1). }
    split.
    + constructor; [exact BK| |exact FO|constructor]. rewrite (laid_latest _ _ H1) in SC. exact SC.
    + eauto.
  - destruct (fs_not_created ls bs name _ cur fs1 _ fs' t9 OK1 PL FS1 Wc R) as [-> SS].
    split; [intros m _ Nc; now apply O1|]. auto.
Qed.
Lemma make_runs ls gb spec name fs made cur bs : listing ls -> laid_store fs made -> current_schema fs cur ->
  wf_schema cur -> settled cur -> fs_get fs name = None -> name <> "current"%string ->
  load_backends gb spec fs = Ok bs ->
  (same_schema (last (map snd made) adb_new) cur -> exists fs' tr, cli_make ls gb spec name fs = (Ok false, fs', tr)) /\
  (~ same_schema (last (map snd made) adb_new) cur ->
     (forall b, In b bs -> exists up down,
        scripts_of bs (last (map Some (map fst made)) None) (last (map snd made) adb_new) cur b up down /\ up <> ""%string /\ down <> ""%string) ->
     exists fs' tr, cli_make ls gb spec name fs = (Ok true, fs', tr)).
Proof.
  intros PL H C Wc Sc Fr NC EB.
  destruct (current_reads ls fs cur PL (ls_ok _ _ H) C) as (fs1 & t7 & E2 & OK1 & ST1 & GI1 & O1 & K1).
  assert (H1 : laid_store fs1 made).
  { apply (laid_same fs); auto.
    - intros n Hn. destruct Hn as [dir Hn]. exists dir. now rewrite K1 by (now exists dir).
    - intros n Hn. apply K1. eapply chain_has; [apply H|exact Hn]. }
  assert (EL : fs_latest fs1 = fs_latest fs) by (rewrite (laid_latest _ _ H1), (laid_latest _ _ H); reflexivity).
  assert (Nd : ~ has_dir fs1 name).
  { intros [dir D]. rewrite O1 in D by exact NC. unfold fs_get in Fr. now rewrite D in Fr. }
  assert (Nn : ~ In name (map fst made)).
  { intros Hn. apply Nd. eapply chain_has; [apply H1|exact Hn]. }
  assert (FS1 : from_schema fs1 (fs_latest fs1) (last (map snd made) adb_new)).
  { apply laid_from_latest. exact H1. }
  assert (Q : forall o fs' t, fs_create_to ls bs name (fs_latest fs1) cur fs1 = (o, fs', t) ->
     exists t', cli_make ls gb spec name fs = (o, fs', t')).
  { intros o fs' t E. unfold cli_make, fbind, fread. rewrite (laid_all _ _ H).
    destruct (existsb _ _) eqn:EX.
    { exfalso. apply Nn. apply existsb_exists in EX as (y & Hy & Ey). apply String.eqb_eq in Ey as ->. exact Hy. }
    rewrite EB. unfold fs_create, fbind. rewrite E2. rewrite <- EL, E. destruct o; eexists; reflexivity. }
  split.
  - intros SS. destruct (create_reads ls bs name _ cur fs1 _ OK1 PL FS1) as (t0 & _ & E).
    unfold fbind at 1, flift in E.
    assert (EC : create_calls bs (fs_latest fs1) (last (map snd made) adb_new) cur = Ok None).
    { unfold create_calls. rewrite diff_eq. apply diff_empty_iff in SS; auto; [|exact (from_schema_wf _ _ _ FS1)]. now rewrite SS. }
    rewrite EC in E. cbn in E. destruct (Q _ _ _ E) as [t' E']. eauto.
  - intros NS SC. destruct (create_runs ls bs name (fs_latest fs1) cur fs1 _ _ OK1 PL FS1 (ls_state _ _ H1) (ls_chain _ _ H1)) as (fs3 & t3 & E5); auto.
    + intros f Ef. rewrite (laid_latest _ _ H1) in Ef. destruct made as [|p r _] using rev_ind; [discriminate|].
      rewrite map_app in Ef. cbn [map] in Ef. rewrite last_some in Ef. injection Ef as <-. rewrite map_app. apply in_or_app. right. now left.
    + destruct (blank_absent _ _ Nd) as [o BL]. destruct BL as [BI _]. eauto.
    + now rewrite (laid_latest _ _ H1).
    + destruct (Q _ _ _ E5) as [t' E']. eauto.
Qed.

(** * Adding and removing a backend *)
Definition sch_of (made : list (string * ADB)) (m : string) : ADB :=
  match find (fun p => String.eqb (fst p) m) made with Some p => snd p | None => adb_new end.
Lemma sch_of_in made m d : NoDup (map fst made) -> In (m, d) made -> sch_of made m = d.
Proof.
  unfold sch_of. induction made as [|[n x] r IH]; intros ND H; [destruct H|]. cbn [map fst find] in *. apply NoDup_cons_iff in ND as [N ND].
  destruct (String.eqb_spec n m) as [->|Ne].
  - destruct H as [[= <-]|H]; [reflexivity|]. exfalso. apply N. apply in_map_iff. now exists (m, d).
  - destruct H as [[= -> ->]|H]; [congruence|auto].
Qed.
Lemma sch_of_prefix made a q : NoDup (map fst made) -> made = a ++ q -> map (sch_of made) (map fst a) = map snd a.
Proof.
  intros ND E. rewrite map_map. apply map_ext_in. intros [n x] Hn. cbn [fst snd]. apply sch_of_in; [exact ND|].
  rewrite E. apply in_or_app. now left.
Qed.
Lemma map_fst_split (made : list (string * ADB)) a m q : map fst made = a ++ m :: q ->
  exists a' d q', made = a' ++ (m, d) :: q' /\ map fst a' = a /\ map fst q' = q.
Proof.
  revert a. induction made as [|[n x] r IH]; intros a E; [destruct a; discriminate|]. cbn [map fst] in E. destruct a as [|y a].
  - injection E as -> <-. now exists [], x, r.
  - injection E as -> E. destruct (IH _ E) as (a' & d & q' & -> & <- & <-). now exists ((y, x) :: a'), d, q'.
Qed.
Lemma in_split_made (made : list (string * ADB)) m d : In (m, d) made -> exists a q, made = a ++ (m, d) :: q.
Proof. apply in_split. Qed.

Lemma add_command ls gb bn fs made o fs' tr : backends_ok gb -> laid_store fs made -> cli_add_backend ls gb bn fs = (o, fs', tr) ->
  script_only (map fst made) bn fs fs' /\ Forall (fun x => script_only (map fst made) bn fs x \/ torn_info x (map fst made)) tr.
Proof.
  intros BO H R.
  assert (S0 : script_only (map fst made) bn fs fs) by (apply so_refl; apply H).
  assert (Dirs : forall m, In m (map fst made) -> has_dir fs m) by (intros m Hm; eapply chain_has; [apply H|exact Hm]).
  unfold cli_add_backend in R. unfold fbind at 1, fread at 1 in R.
  destruct (latest_backends gb fs) as [bs| |]; [|injection R as <- <- <-; auto..].
  destruct (existsb _ bs).
  { unfold flift in R. injection R as <- <- <-. split; [exact S0|constructor]. }
  destruct (gb bn) as [b|] eqn:Eb.
  2:{ unfold flift in R. injection R as <- <- <-. split; [exact S0|constructor]. }
  unfold fbind at 1, fread at 1 in R. rewrite (laid_all _ _ H) in R.
  destruct (add_scripts ls b adb_new (map fst made) fs) as [[o1 f1] t1] eqn:EA. cbn [app] in R. injection R as <- <- <-.
  exact (safe_add_scripts (map fst made) bn fs Dirs ls b (BO _ _ Eb) (map fst made) adb_new (incl_refl _) fs o1 f1 t1 S0 EA).
Qed.
Lemma add_command_ok ls gb bn fs made u fs' tr : listing ls -> backends_ok gb -> laid_store fs made ->
  cli_add_backend ls gb bn fs = (Ok u, fs', tr) ->
  exists b bs, gb bn = Some b /\ latest_backends gb fs = Ok bs /\ ~ In bn (map b_name bs) /\
   forall a m d q, made = a ++ (m, d) :: q -> exists up down i,
     backend_scripts b (last (map snd a) adb_new) d up down /\
     read_sql m bn "up" fs' = Ok (Some (with_newline up)) /\ read_sql m bn "down" fs' = Ok (Some (with_newline down)) /\
     read_info m fs = Ok i /\ read_info m fs' = Ok (with_backend bn i).
Proof.
  intros PL BO H R. pose proof (laid_names _ _ H) as ND. unfold cli_add_backend in R.
  apply fbind_ok in R as (bs & f0 & t1 & t2 & E1 & R & _). apply fread_ok in E1 as (E1 & -> & _).
  destruct (existsb _ bs) eqn:EX; [discriminate|]. destruct (gb bn) as [b|] eqn:Eb; [|discriminate].
  apply fbind_ok in R as (all & f0 & t3 & t4 & E2 & R & _). apply fread_ok in E2 as (E2 & -> & _). rewrite (laid_all _ _ H) in E2. injection E2 as <-.
  exists b, bs. split; [reflexivity|]. split; [exact E1|]. split.
  { intros Hb. apply in_map_iff in Hb as (b0 & E & Hb). assert (X : existsb (fun b => String.eqb (b_name b) bn) bs = true).
    { apply existsb_exists. exists b0. split; [exact Hb|]. now apply String.eqb_eq. }
    congruence. }
  intros a m d q E. pose proof (add_effect ls b (sch_of made) PL (map fst made) adb_new fs u fs' t4 (ls_ok _ _ H) ND) as AE.
  rewrite (BO _ _ Eb) in AE. destruct (AE) with (a := map fst a) (m := m) (q := map fst q) as (up & down & i & A & B & C & D & F); auto.
  - intros x Hx. split; [eapply chain_has; [apply H|exact Hx]|]. apply in_map_iff in Hx as ([x' dx] & <- & Hx). cbn [fst].
    rewrite (sch_of_in _ _ _ ND Hx). eapply laid_schema; eauto.
  - rewrite E, map_app. reflexivity.
  - exists up, down, i. rewrite (sch_of_prefix made a _ ND E) in A. rewrite (sch_of_in made m d ND) in A; [auto|].
    rewrite E. apply in_elt.
Qed.
Lemma laid_differs fs made a m d q : laid_store fs made -> made = a ++ (m, d) :: q ->
  wf_schema (last (map snd a) adb_new) /\ wf_schema d /\ ~ same_schema (last (map snd a) adb_new) d.
Proof.
  intros H ->. pose proof (ls_laid _ _ H) as L. apply laid_chain_app in L as [L1 L2].
  inversion L2 as [|? ? ? ? ? LO _]; subst. split; [|split; [apply LO|apply LO]].
  destruct a as [|[n x] a _] using rev_ind; [apply (from_schema_wf fs None), eq_refl|].
  rewrite map_app. cbn [map snd]. rewrite last_last. eapply st_wf, stored_of; [exact H|]. apply in_or_app. left. apply in_or_app. right. now left.
Qed.
Lemma add_command_runs ls gb bn fs made bs b : listing ls -> backends_ok gb -> laid_store fs made ->
  latest_backends gb fs = Ok bs -> ~ In bn (map b_name bs) -> gb bn = Some b ->
  (forall a m d q, made = a ++ (m, d) :: q -> exists up down,
     backend_scripts b (last (map snd a) adb_new) d up down /\ up <> ""%string /\ down <> ""%string) ->
  exists fs' tr, cli_add_backend ls gb bn fs = (Ok tt, fs', tr).
Proof.
  intros PL BO H EB NI Eb SC. pose proof (laid_names _ _ H) as ND. unfold cli_add_backend, fbind, fread. rewrite EB.
  destruct (existsb _ bs) eqn:EX.
  { exfalso. apply NI. apply existsb_exists in EX as (b0 & Hb & E). apply String.eqb_eq in E as <-. now apply in_map. }
  rewrite Eb, (laid_all _ _ H).
  destruct (add_runs ls b (sch_of made) PL (map fst made) adb_new fs (ls_ok _ _ H) ND) as (fs' & tr & E).
  - intros x Hx. split; [eapply chain_has; [apply H|exact Hx]|]. apply in_map_iff in Hx as ([x' dx] & <- & Hx). cbn [fst].
    rewrite (sch_of_in _ _ _ ND Hx). split; [eapply laid_schema; eauto|]. destruct (st_info _ _ _ (stored_of _ _ _ _ H Hx)) as (i & I & _). eauto.
  - intros a m q E. destruct (map_fst_split _ _ _ _ E) as (a' & d & q' & E' & <- & <-).
    rewrite (sch_of_prefix made a' _ ND E'), (sch_of_in made m d ND) by (rewrite E'; apply in_elt). split; [|eauto].
    destruct (laid_differs _ _ _ _ _ _ H E') as (W1 & W2 & N). rewrite diff_eq. intros [= X]. apply N. now apply diff_empty_iff.
  - rewrite E. eauto.
Qed.

Lemma remove_command gb bn fs made o fs' tr : backends_ok gb -> laid_store fs made -> cli_remove_backend gb bn fs = (o, fs', tr) ->
  script_only (map fst made) bn fs fs' /\ Forall (fun x => script_only (map fst made) bn fs x \/ torn_info x (map fst made)) tr.
Proof.
  intros BO H R.
  assert (S0 : script_only (map fst made) bn fs fs) by (apply so_refl; apply H).
  assert (Dirs : forall m, In m (map fst made) -> has_dir fs m) by (intros m Hm; eapply chain_has; [apply H|exact Hm]).
  unfold cli_remove_backend in R. unfold fbind at 1, fread at 1 in R.
  destruct (latest_backends gb fs) as [bs| |]; [|injection R as <- <- <-; auto..].
  destruct (Nat.eqb (length bs) 1).
  { unfold flift in R. injection R as <- <- <-. split; [exact S0|constructor]. }
  destruct (gb bn) as [b|] eqn:Eb.
  2:{ unfold flift in R. injection R as <- <- <-. split; [exact S0|constructor]. }
  unfold fbind at 1, fread at 1 in R. rewrite (laid_all _ _ H) in R. rewrite (BO _ _ Eb) in R.
  destruct (remove_scripts bn (map fst made) fs) as [[o1 f1] t1] eqn:EA. cbn [app] in R. injection R as <- <- <-.
  exact (safe_remove_scripts (map fst made) bn fs Dirs (map fst made) (incl_refl _) fs o1 f1 t1 S0 EA).
Qed.
Lemma remove_command_ok gb bn fs made u fs' tr : backends_ok gb -> laid_store fs made -> cli_remove_backend gb bn fs = (Ok u, fs', tr) ->
  exists b bs, gb bn = Some b /\ latest_backends gb fs = Ok bs /\ length bs <> 1 /\
  forall m, In m (map fst made) -> exists i, read_info m fs = Ok i /\ read_info m fs' = Ok (without_backend bn i) /\
    read_sql m bn "up" fs' = Ok None /\ read_sql m bn "down" fs' = Ok None.
Proof.
  intros BO H R. pose proof (laid_names _ _ H) as ND. unfold cli_remove_backend in R.
  apply fbind_ok in R as (bs & f0 & t1 & t2 & E1 & R & _). apply fread_ok in E1 as (E1 & -> & _).
  destruct (Nat.eqb_spec (length bs) 1) as [|NL]; [discriminate|]. destruct (gb bn) as [b|] eqn:Eb; [|discriminate].
  apply fbind_ok in R as (all & f0 & t3 & t4 & E2 & R & _). apply fread_ok in E2 as (E2 & -> & _). rewrite (laid_all _ _ H) in E2. injection E2 as <-.
  exists b, bs. split; [reflexivity|]. split; [exact E1|]. split; [exact NL|]. rewrite (BO _ _ Eb) in R.
  eapply remove_effect; [apply H|exact ND| |exact R]. intros m Hm. eapply chain_has; [apply H|exact Hm].
Qed.
Lemma remove_command_runs gb bn fs made bs b : backends_ok gb -> laid_store fs made ->
  latest_backends gb fs = Ok bs -> length bs <> 1 -> gb bn = Some b ->
  (forall m, In m (map fst made) -> (exists s, read_sql m bn "up" fs = Ok (Some s)) /\ exists s, read_sql m bn "down" fs = Ok (Some s)) ->
  exists fs' tr, cli_remove_backend gb bn fs = (Ok tt, fs', tr).
Proof.
  intros BO H EB NL Eb SC. pose proof (laid_names _ _ H) as ND. unfold cli_remove_backend, fbind, fread. rewrite EB.
  destruct (Nat.eqb_spec (length bs) 1) as [|_]; [contradiction|]. rewrite Eb, (laid_all _ _ H), (BO _ _ Eb).
  assert (G : forall m dir s, read_sql m bn dir fs = Ok (Some s) -> exists f, get_file m (sql_name bn dir) fs = Some f).
  { intros m dir s. unfold read_sql. destruct (get_file m (sql_name bn dir) fs) as [f|]; [eauto|discriminate]. }
  destruct (remove_runs bn (map fst made) fs (ls_ok _ _ H) ND) as (fs' & tr & E).
  - intros m Hm. split; [eapply chain_has; [apply H|exact Hm]|]. destruct (SC m Hm) as ((s1 & S1) & s2 & S2). split; [|eauto].
    apply in_map_iff in Hm as ([m' d] & <- & Hm). destruct (st_info _ _ _ (stored_of _ _ _ _ H Hm)) as (i & I & _). eauto.
  - rewrite E. eauto.
Qed.

(** What that means for the scripts as a whole. *)
Lemma so_other l bn fs x m b dir : script_only l bn fs x -> b <> bn ->
  dir = "up"%string \/ dir = "down"%string -> read_sql m b dir x = read_sql m b dir fs.
Proof.
  intros H Nb Hd. unfold read_sql. rewrite (so_files _ _ _ _ H m (sql_name b dir)); [reflexivity| | |apply sql_name_info].
  - destruct Hd as [->| ->]; intros E; [apply sql_name_inj in E; congruence|symmetry in E; now apply sql_up_down in E].
  - destruct Hd as [->| ->]; intros E; [now apply sql_up_down in E|apply sql_name_inj in E; congruence].
Qed.
Lemma with_scripts l fs fs' bs b : script_only l (b_name b) fs fs' -> ~ In (b_name b) (map b_name bs) ->
  forall r made a, has_scripts fs bs (map fst a) (last (map snd a) adb_new) r -> made = a ++ r ->
  (forall a0 m d q, made = a0 ++ (m, d) :: q -> exists up down i,
     backend_scripts b (last (map snd a0) adb_new) d up down /\
     read_sql m (b_name b) "up" fs' = Ok (Some (with_newline up)) /\ read_sql m (b_name b) "down" fs' = Ok (Some (with_newline down)) /\
     read_info m fs = Ok i /\ read_info m fs' = Ok (with_backend (b_name b) i)) ->
  (forall a0 m d q, made = a0 ++ (m, d) :: q -> a0 <> [] -> a_tables (last (map snd a0) adb_new) <> []) ->
  has_scripts fs' (bs ++ [b]) (map fst a) (last (map snd a) adb_new) r.
Proof.
  intros SO NI. induction r as [|[n d] r IH]; intros made a HS E HA NE; [constructor|].
  inversion HS as [|? ? ? ? ? BK SC FO HR]; subst. destruct (HA a n d r eq_refl) as (up & down & i & B & U & W & I & I').
  constructor.
  - rewrite I in BK. cbn [omap] in BK. injection BK as BK. rewrite I'. unfold with_backend, omap. cbn [in_backends]. rewrite BK, map_app. cbn [map].
    destruct (existsb _ _) eqn:EX; [|reflexivity]. exfalso. apply NI. apply existsb_exists in EX as (y & Hy & Ey). apply String.eqb_eq in Ey as ->. exact Hy.
  - intros b0 Hb. apply in_app_iff in Hb as [Hb|[<-|[]]].
    + destruct (SC b0 Hb) as (u0 & w0 & (_ & X) & R1 & R2).
      assert (Nb : b_name b0 <> b_name b) by (intros Eb; apply NI; rewrite <- Eb; now apply in_map).
      exists u0, w0. split; [split; [apply in_or_app; now left|exact X]|]. rewrite !(so_other _ _ _ _ _ _ _ SO Nb) by auto. auto.
    + exists up, down. split; [|auto]. split; [apply in_or_app; right; now left|]. destruct B as (ops & dops & D1 & D2 & S1 & S2).
      exists ops, dops. repeat (split; [assumption|]). split; [|exact S2]. rewrite <- S1. f_equal.
      destruct a as [|[p x] a _] using rev_ind; [reflexivity|]. pose proof (NE (a ++ [(p, x)]) n d r eq_refl ltac:(now destruct a)) as N.
      rewrite (map_app fst). cbn [map fst]. rewrite last_some. destruct (a_tables (last _ _)); [congruence|reflexivity].
  - intros k f G. destruct (String.eqb_spec k (sql_name (b_name b) "up")) as [->|N1].
    { right. right. exists b, "up"%string. split; [apply in_or_app; right; now left|auto]. }
    destruct (String.eqb_spec k (sql_name (b_name b) "down")) as [->|N2].
    { right. right. exists b, "down"%string. split; [apply in_or_app; right; now left|auto]. }
    destruct (String.eqb_spec k "info.json") as [->|N3]; [now left|].
    rewrite (so_files _ _ _ _ SO) in G by assumption. destruct (FO k f G) as [X|[X|(b0 & dir & Hb & Hd & X)]]; auto.
    right. right. exists b0, dir. split; [apply in_or_app; now left|auto].
  - pose proof (IH (a ++ (n, d) :: r) (a ++ [(n, d)])) as Q. rewrite !map_app in Q. cbn [map fst snd] in Q. rewrite last_last in Q.
    apply Q; auto. now rewrite <- app_assoc.
Qed.
Lemma without_scripts l fs fs' bs bn : script_only l bn fs fs' ->
  forall r e dp, has_scripts fs bs e dp r ->
  (forall m, In m (map fst r) -> exists i, read_info m fs = Ok i /\ read_info m fs' = Ok (without_backend bn i) /\
    get_file m (sql_name bn "up") fs' = None /\ get_file m (sql_name bn "down") fs' = None) ->
  has_scripts fs' (filter (fun b => negb (String.eqb (b_name b) bn)) bs) e dp r.
Proof.
  intros SO. induction 1 as [|e dp n d r BK SC FO HR IH]; intros HA; [constructor|].
  destruct (HA n (or_introl eq_refl)) as (i & I & I' & U & W).
  assert (FM : forall l0 : list Backend, filter (fun x => negb (String.eqb x bn)) (map b_name l0) =
     map b_name (filter (fun b => negb (String.eqb (b_name b) bn)) l0)).
  { induction l0 as [|x l0 IHl]; cbn [map filter]; [reflexivity|]. destruct (negb _); cbn [map]; now rewrite IHl. }
  constructor.
  - rewrite I in BK. cbn [omap] in BK. injection BK as BK. rewrite I'. unfold without_backend, omap. cbn [in_backends]. rewrite BK. unfold not_bn. now rewrite FM.
  - intros b0 Hb. apply filter_In in Hb as [Hb Nb]. apply negb_true_iff, String.eqb_neq in Nb.
    destruct (SC b0 Hb) as (u0 & w0 & (_ & X) & R1 & R2).
    exists u0, w0. split; [split; [apply filter_In; split; [exact Hb|now apply negb_true_iff, String.eqb_neq]|exact X]|].
    rewrite !(so_other _ _ _ _ _ _ _ SO Nb) by auto. auto.
  - intros k f G. destruct (String.eqb_spec k (sql_name bn "up")) as [->|N1]; [congruence|].
    destruct (String.eqb_spec k (sql_name bn "down")) as [->|N2]; [congruence|].
    destruct (String.eqb_spec k "info.json") as [->|N3]; [now left|].
    rewrite (so_files _ _ _ _ SO) in G by assumption. destruct (FO k f G) as [X|[X|(b0 & dir & Hb & Hd & X)]]; auto.
    right. right. exists b0, dir. split; [|auto]. apply filter_In. split; [exact Hb|]. apply negb_true_iff, String.eqb_neq.
    intros Eb. rewrite Eb in X. destruct Hd as [->| ->]; contradiction.
  - apply IH. intros m Hm. apply HA. now right.
Qed.
