(** Creating migrations leaves, for each backend, the scripts of the changes. *)
From Verif Require Import Base SqlVal Sql Adb AdbSpec AdbProofs ResolveSpec Literal LiteralSpec Ddl DdlSpec
  Backend SqliteSem MigrateSpec Chain ChainSpec ChainProofs Store StoreSpec StoreProofs FsStore FsSpec FsProofs Deploy DeploySpec DeploySame.

Section Any.
Context {M : Type} (c : Coll M) (bs : list Backend) (b : Backend).
Definition from_end (from : option string) (p : list (M * ADB)) : option string :=
  match rev p with [] => from | (m, _) :: _ => Some (cl_name c m) end.
Lemma from_end_cons from m to p : from_end from ((m, to) :: p) = from_end (Some (cl_name c m)) p.
Proof. unfold from_end. cbn. destruct (rev p) as [|[x y] l]; reflexivity. Qed.
Lemma last_cons' {A} (x d : A) l : last (x :: l) d = last l x.
Proof. revert x d. induction l as [|y l IH]; intros x d; [reflexivity|]. change (last (x :: y :: l) d) with (last (y :: l) d). rewrite IH. symmetry. now rewrite IH. Qed.
Lemma scripted_snoc p : forall from d m to before up down, scripted c bs b from d p ->
  same_schema before (last (map snd p) d) -> wf_schema before -> plain_zeros before ->
  scripts_of bs (from_end from p) before to b up down ->
  kept_as up (cl_up c m (b_name b)) -> kept_as down (cl_down c m (b_name b)) ->
  scripted c bs b from d (p ++ [(m, to)]).
Proof.
  induction p as [|[m0 to0] p IH]; intros from d m to before up down H S W Z Q K1 K2.
  - cbn in *. econstructor; eauto. constructor.
  - inversion H as [|? ? ? ? ? bf u w S0 W0 Z0 Q0 A0 B0 R]. subst. cbn [app]. econstructor; eauto. cbn [map snd] in S. rewrite last_cons' in S. rewrite from_end_cons in Q. eapply IH; eauto.
Qed.
Lemma scripted_ext (c' : Coll M) p : forall from d,
  (forall m to, In (m, to) p -> cl_name c' m = cl_name c m /\ cl_up c' m (b_name b) = cl_up c m (b_name b) /\ cl_down c' m (b_name b) = cl_down c m (b_name b)) ->
  scripted c bs b from d p -> scripted c' bs b from d p.
Proof.
  induction p as [|[m0 to0] p IH]; intros from d E H; [constructor|].
  inversion H as [|? ? ? ? ? bf u w S0 W0 Z0 Q0 A0 B0 R]. subst. destruct (E m0 to0 (or_introl eq_refl)) as (E1 & E2 & E3).
  econstructor; eauto; [now rewrite E2|now rewrite E3|]. rewrite E1. apply IH; [|exact R]. intros m to Hm. apply (E m to). now right.
Qed.
End Any.
Lemma same_schema_refl d : wf_schema d -> same_schema d d.
Proof. intros W. split; intros n t Ht; exists t; (split; [exact Ht|apply same_table_refl; exact (proj2 (proj2 W n t Ht))]). Qed.
Lemma made_of_same steps : forall d d' made, same_schema d d' -> made_of d steps made -> made_of d' steps made.
Proof.
  induction steps as [|[n to] steps IH]; intros d d' made S H; inversion H as [|? ? ? ? ? SS R|? ? ? ? ? N R]; subst.
  - constructor.
  - constructor; [eapply same_schema_trans; [apply same_schema_sym, S|exact SS]|eauto].
  - constructor 3; [|exact R]. intros X. apply N. eapply same_schema_trans; eauto.
Qed.

(** * In memory *)
Definition named (p : MemMigration * ADB) : string * ADB := (mm_name (fst p), snd p).
Definition bare (d : ADB) : ADB := {| a_tables := a_tables d; a_types := [] |}.
Lemma bare_same d : wf_schema d -> same_schema (bare d) d.
Proof. intros W. pose proof (same_schema_refl d W) as [A B]. split; [exact A|exact B]. Qed.
Lemma mem_scripted bs b steps : NoDup (map b_name bs) -> In b bs -> forall s s' l,
  mem_wf s -> chain (mem_coll s) (map fst l) -> scripted (mem_coll s) bs b None adb_new l ->
  (exists d0, schema_of_latest s d0 /\ same_schema d0 (schema_after l) /\ wf_schema d0 /\ plain_zeros d0) ->
  NoDup (map fst steps) -> (forall n, In n (map fst steps) -> mem_get s n = None) ->
  (forall n to, In (n, to) steps -> wf_schema to /\ settled to /\ plain_zeros to) ->
  mem_create_all bs s steps = Ok s' ->
  exists l', made_of (schema_after l) steps (map named l') /\ mem_wf s' /\ chain (mem_coll s') (map fst (l ++ l'))
    /\ scripted (mem_coll s') bs b None adb_new (l ++ l').
Proof.
  intros NDb Hb. induction steps as [|[n to] steps IH]; intros s s' l W C SC (d0 & SL & S0 & Wd & Z0) ND Fr WT H; cbn in H.
  - injection H as <-. exists []. rewrite app_nil_r. split; [constructor|auto].
  - destruct (mem_create_to s bs n (mem_latest s) to) as [[r s1]| |] eqn:E; cbn in H; try discriminate.
    destruct (WT n to (or_introl eq_refl)) as (Wt & St & Zt). cbn in ND. inversion ND as [|? ? Hn ND']; subst.
    destruct r.
    + apply (mem_created s bs n (mem_latest s) to s1 d0 SL Wd Wt St NDb) in E
        as (NS & m & -> & En & Ef & Rd & Sc & _).
      assert (Fm : mem_get s (mm_name m) = None) by (rewrite En; apply Fr; cbn; auto).
      assert (FE : option_map mm_name (mem_latest s) = from_end (mem_coll s) None l).
      { unfold chain in C. cbn [cl_latest mem_coll] in C. unfold from_end. destruct (mem_latest s) as [x|].
        - apply chain_to_last in C as [a Ea]. destruct l as [|[y t] l _] using rev_ind; [destruct a; discriminate|].
          rewrite map_app in Ea. cbn in Ea. apply app_inj_tail in Ea as [_ ->]. now rewrite rev_app_distr.
        - destruct l; [reflexivity|discriminate]. }
      destruct (Sc b Hb) as (up & down & Q & E1 & E2).
      assert (SC' : scripted (mem_coll (mem_add s m)) bs b None adb_new (l ++ [(m, to)])).
      { apply (scripted_snoc _ _ _ l None adb_new m to d0 up down).
        - apply (scripted_ext (mem_coll s)); [|exact SC]. intros x t _. split; [reflexivity|split; reflexivity].
        - exact S0.
        - exact Wd.
        - exact Z0.
        - rewrite FE in Q. exact Q.
        - left. cbn. now rewrite E1.
        - left. cbn. now rewrite E2. }
      assert (EA : schema_after (l ++ [(m, to)]) = to) by (unfold schema_after; rewrite map_app; apply last_last).
      eapply (IH _ _ (l ++ [(m, to)])) in H as (l' & MO & W' & C' & SC2).
      * exists ((m, to) :: l'). rewrite <- app_assoc in C', SC2. rewrite EA in MO.
        split; [|split; [exact W'|split; assumption]]. cbn [map named fst snd]. unfold named at 1. cbn [fst snd]. rewrite En. constructor 3; [|exact MO].
        intros X. apply NS. eapply same_schema_trans; eauto.
      * apply mem_add_wf, W.
      * rewrite map_app. apply mem_add_chain; assumption.
      * exact SC'.
      * exists (bare to). split; [unfold schema_of_latest; rewrite mem_add_latest by assumption; exact Rd|].
        rewrite EA. split; [apply bare_same, Wt|]. split; [split; [exact (proj1 Wt)|exact (proj2 Wt)]|exact Zt].
      * exact ND'.
      * intros k Hk. rewrite mem_add_get by exact W. destruct (String.eqb_spec k (mm_name m)) as [->|N].
        -- exfalso. apply Hn. rewrite <- En. exact Hk.
        -- apply Fr. cbn. auto.
      * intros k t Hk. apply (WT k t). cbn. auto.
    + apply (mem_not_created s bs n (mem_latest s) to s1 d0 SL Wd Wt) in E as (-> & SS). cbn [snd] in H.
      destruct (IH s s' l W C SC) as (l' & MO & R); auto.
      * exists d0. auto.
      * intros k Hk. apply Fr. cbn. auto.
      * intros k t Hk. apply (WT k t). cbn. auto.
      * exists l'. split; [|exact R]. constructor; [|exact MO]. eapply same_schema_trans; [apply same_schema_sym, S0|exact SS].
Qed.
Lemma plain_new : plain_zeros adb_new.
Proof. intros n t c r []. Qed.
Lemma mem_scripted_new bs b steps s : NoDup (map b_name bs) -> In b bs -> NoDup (map fst steps) ->
  (forall n to, In (n, to) steps -> wf_schema to /\ settled to /\ plain_zeros to) ->
  mem_create_all bs mem_new steps = Ok s ->
  exists l, made_of adb_new steps (map named l) /\ coherent (mem_coll s) /\ chain (mem_coll s) (map fst l) /\ scripted (mem_coll s) bs b None adb_new l.
Proof.
  intros NDb Hb ND HS H. destruct (mem_scripted bs b steps NDb Hb mem_new s []) as (l & MO & W & C & SC); auto.
  - split; [constructor|]. split; [intros n m []|discriminate].
  - reflexivity.
  - constructor.
  - exists adb_new. split; [reflexivity|]. split; [apply same_schema_refl, empty_wf|]. split; [apply empty_wf|apply plain_new].
  - exists l. split; [exact MO|]. split; [exact (mem_coherent s W)|]. auto.
Qed.

(** * On disk *)
Lemma chain_dirs fs l n : chain (fs_coll fs) l -> In n l -> has_dir fs n.
Proof.
  unfold chain. cbn [cl_latest fs_coll]. destruct (fs_latest fs) as [m|] eqn:El; [|intros -> []].
  assert (L : has_dir fs m) by (apply latest_dir, El). clear El. intros H. revert L.
  induction H as [m F|m p l (k & E & G) C IH]; intros L Hn.
  - destruct Hn as [<-|[]]. exact L.
  - apply in_app_or in Hn as [Hn|[<-|[]]]; [|exact L]. apply IH; [|exact Hn]. cbn in G. apply fs_get_dir in G as [-> G]. exact G.
Qed.
Lemma read_sql_same name fs x n bk dir : same_outside name fs x -> n <> name -> read_sql n bk dir x = read_sql n bk dir fs.
Proof. intros SO N. unfold read_sql. rewrite (get_file_same name fs x) by assumption. reflexivity. Qed.
Lemma from_schema_fun fs from d d' : fs_ok fs -> from_schema fs from d -> from_schema fs from d' -> d = d'.
Proof.
  destruct from as [f|]; cbn; [|congruence]. intros OK A B.
  pose proof (stored_schema fs f d OK A (fun l => l)) as X. pose proof (stored_schema fs f d' OK B (fun l => l)) as Y.
  assert (P : listing (fun l : list string => l)) by (intros l; apply Permutation.Permutation_refl).
  specialize (X P). specialize (Y P). congruence.
Qed.
Lemma fs_scripted_all ls bs b steps : listing ls -> NoDup (map b_name bs) -> In b bs -> forall fs made fs' tr,
  holds fs made (schema_after made) -> scripted (fs_coll fs) bs b None adb_new made ->
  (exists d0, from_schema fs (fs_latest fs) d0 /\ plain_zeros d0) -> wf_schema (schema_after made) ->
  NoDup (map fst steps) -> (forall n to, In (n, to) steps -> ~ has_dir fs n /\ wf_schema to /\ settled to /\ plain_zeros to) ->
  fs_create_all ls bs steps fs = (Ok tt, fs', tr) ->
  exists made', made_of (schema_after made) steps made' /\ holds fs' (made ++ made') (schema_after (made ++ made'))
    /\ scripted (fs_coll fs') bs b None adb_new (made ++ made').
Proof.
  intros PL NDb Hb. induction steps as [|[n to] steps IH]; intros fs made fs' tr HO SC (d0 & F0 & Z0) Wd ND HS H.
  - cbn in H. injection H as <- <-. exists []. rewrite app_nil_r. split; [constructor|auto].
  - cbn [fs_create_all] in H. unfold fbind at 1, fread in H.
    destruct (HS n to (or_introl eq_refl)) as (NH & Wt & St & Zt). cbn [map fst] in ND. inversion_clear ND as [|? ? Nn ND'].
    destruct (fs_create_to ls bs n (fs_latest fs) to fs) as [[o fs1] t1] eqn:E1.
    destruct (holds_step _ _ _ _ _ _ _ _ _ _ PL NDb HO NH Wt St Wd E1) as (R & SO & _).
    unfold fbind in H. rewrite E1 in H.
    pose proof HO as (OK & GS & CH & (d1 & F1 & S1) & _).
    assert (d1 = d0) by (eapply from_schema_fun; eauto). subst d1.
    assert (HS' : forall m to', In (m, to') steps -> ~ has_dir fs1 m /\ wf_schema to' /\ settled to' /\ plain_zeros to').
    { intros m to' Hm. destruct (HS m to' (or_intror Hm)) as (A & B & C). split; [|auto]. intros D. apply A.
      apply (dir_same n fs fs1) in D; auto. intros ->. apply Nn. apply in_map_iff. exists (n, to'). auto. }
    assert (SX : scripted (fs_coll fs1) bs b None adb_new made).
    { apply (scripted_ext (fs_coll fs)); [|exact SC]. intros m t Hm.
      assert (m <> n). { intros ->. apply NH, (chain_dirs fs (map fst made)); [exact CH|]. apply in_map_iff. exists (n, t). auto. }
      split; [reflexivity|]. cbn. split; apply (read_sql_same n); assumption. }
    destruct o as [r|e|]; [|discriminate..].
    destruct (fs_create_all ls bs steps fs1) as [[o2 fs2] t2] eqn:E2. injection H as -> <- <-.
    destruct r.
    + destruct R as [(_ & N & HO')|[X _]]; [|congruence].
      destruct (fs_created _ _ _ _ _ _ _ _ _ OK PL NH GS CH F0 Wt St NDb E1) as (_ & OK' & _ & _ & EL & _ & (d' & SS & Sd' & Fr) & _ & Q).
      destruct (Q b Hb) as (up & down & SCR & R1 & R2).
      assert (FE : fs_latest fs = from_end (fs_coll fs1) None made).
      { unfold chain in CH. cbn [cl_latest fs_coll] in CH. unfold from_end. destruct (fs_latest fs) as [x|].
        - apply chain_to_last in CH as [a Ea]. destruct made as [|[y t] made _] using rev_ind; [destruct a; discriminate|].
          rewrite map_app in Ea. cbn in Ea. apply app_inj_tail in Ea as [_ ->]. now rewrite rev_app_distr.
        - destruct made; [reflexivity|discriminate]. }
      assert (SC' : scripted (fs_coll fs1) bs b None adb_new (made ++ [(n, to)])).
      { apply (scripted_snoc _ _ _ made None adb_new n to d0 up down); auto.
        - eapply from_schema_wf, F0.
        - rewrite FE in SCR. exact SCR.
        - right. exact R1.
        - right. exact R2. }
      assert (EA : schema_after (made ++ [(n, to)]) = to) by (unfold schema_after; rewrite map_app; apply last_last).
      destruct (IH fs1 (made ++ [(n, to)]) fs2 t2) as (made' & MO & HO2 & SC2); rewrite ?EA; auto.
      * exists d'. rewrite EL. split; [exact Sd'|]. intros x t c r Hx. destruct (Fr x t Hx) as [Hx'|Hx']; eauto.
      * exists ((n, to) :: made'). rewrite EA in MO. rewrite <- app_assoc in HO2, SC2. split; [now constructor 3|auto].
    + destruct R as [(X & _)|(_ & HO' & SS)]; [discriminate|]. specialize (SS eq_refl).
      destruct (fs_not_created _ _ _ _ _ _ _ _ _ OK PL F0 Wt E1) as [-> _].
      destruct (IH fs made fs2 t2) as (made' & MO & R2); auto.
      * exists d0. auto.
      * exists made'. split; [now constructor|exact R2].
Qed.
Lemma fs_scripted_new ls bs b steps fs fs' tr : listing ls -> NoDup (map b_name bs) -> In b bs -> fs_fresh fs -> NoDup (map fst steps) ->
  (forall n to, In (n, to) steps -> fs_get fs n = None /\ wf_schema to /\ settled to /\ plain_zeros to) ->
  fs_create_all ls bs steps fs = (Ok tt, fs', tr) ->
  exists made, made_of adb_new steps made /\ coherent (fs_coll fs') /\ chain (fs_coll fs') (map fst made) /\ scripted (fs_coll fs') bs b None adb_new made.
Proof.
  intros PL NDb Hb F ND HS H. destruct (fs_scripted_all ls bs b steps PL NDb Hb fs [] fs' tr) as (made & MO & HO & SC); auto.
  - apply holds_fresh, F.
  - constructor.
  - exists adb_new. destruct F as [OK E]. assert (L : fs_latest fs = None) by (unfold fs_latest, get_state; now rewrite E).
    rewrite L. split; [reflexivity|apply plain_new].
  - apply empty_wf.
  - intros n to Hn. destruct (HS n to Hn) as (A & B & C & D). split; [|auto]. intros [dir X]. unfold fs_get in A. now rewrite X in A.
  - exists made. split; [exact MO|]. destruct HO as (OK & _ & CH & _). split; [now apply fs_coherent|auto].
Qed.
