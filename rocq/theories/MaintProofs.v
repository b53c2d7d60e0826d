(** Proofs about the maintenance commands: adding and removing backends. *)
From Verif Require Import Base SqlVal Adb AdbSpec AdbProofs ResolveSpec Chain ChainSpec ChainProofs Store StoreSpec StoreProofs
  FsStore FsSpec FsProofs Maint MaintSpec.
From Coq Require Import Permutation.

(** * Files that only differ in the scripts of one backend *)
Definition not_bn (bn : string) (l : list string) : list string := filter (fun b => negb (String.eqb b bn)) l.
Record script_only (l : list string) (bn : string) (fs x : FS) : Prop := {
  so_ok : fs_ok x;
  so_state : fs_state x = fs_state fs;
  so_git : fs_gitignore x = fs_gitignore fs;
  so_dirs : forall m, has_dir x m <-> has_dir fs m;
  so_out : forall m, ~ In m l -> mget m (fs_dirs x) = mget m (fs_dirs fs);
  so_files : forall m k, k <> sql_name bn "up" -> k <> sql_name bn "down" -> k <> "info.json"%string ->
               get_file m k x = get_file m k fs;
  so_info : forall m i, read_info m fs = Ok i -> exists i', read_info m x = Ok i' /\
              in_from i' = in_from i /\ in_bases i' = in_bases i /\
              not_bn bn (in_backends i') = not_bn bn (in_backends i);
  so_bad : forall m, (forall i, read_info m fs <> Ok i) -> get_file m "info.json" x = get_file m "info.json" fs }.
Lemma so_refl l bn fs : fs_ok fs -> script_only l bn fs fs.
Proof. intros OK. split; auto; [reflexivity|eauto]. Qed.

Section Scripts.
  Variables (l : list string) (bn : string) (fs0 : FS).
  Hypothesis Dirs : forall m, In m l -> has_dir fs0 m.
  Notation SO := (script_only l bn fs0).
  Definition safe_at (y : FS) : Prop := SO y \/ torn_info y l.
  Definition safe {A} (x : FsM A) : Prop :=
    forall fs o fs' tr, SO fs -> x fs = (o, fs', tr) -> SO fs' /\ Forall safe_at tr.

  Lemma safe_ret {A} (a : A) : safe (fret a).
  Proof. intros fs o fs' tr H [= <- <- <-]. auto. Qed.
  Lemma safe_lift {A} (a : outcome A) : safe (flift a).
  Proof. intros fs o fs' tr H [= <- <- <-]. auto. Qed.
  Lemma safe_read {A} (f : FS -> outcome A) : safe (fread f).
  Proof. intros fs o fs' tr H [= <- <- <-]. auto. Qed.
  Lemma safe_bind {A B} (x : FsM A) (f : A -> FsM B) : safe x -> (forall a, safe (f a)) -> safe (fbind x f).
  Proof.
    intros Hx Hf fs o fs' tr H E. unfold fbind in E. destruct (x fs) as [[ox fs1] t1] eqn:Ex.
    destruct (Hx _ _ _ _ H Ex) as [S1 T1]. destruct ox as [a|e|].
    - destruct (f a fs1) as [[o2 fs2] t2] eqn:Ef. injection E as <- <- <-.
      destruct (Hf a _ _ _ _ S1 Ef) as [S2 T2]. split; [exact S2|]. apply Forall_app. auto.
    - injection E as <- <- <-. auto.
    - injection E as <- <- <-. auto.
  Qed.
  Lemma so_has fs m : SO fs -> In m l -> has_dir fs m.
  Proof. intros H Hm. apply (so_dirs _ _ _ _ H), Dirs, Hm. Qed.
  Lemma safe_ensure m : In m l -> safe (ensure_dir m).
  Proof.
    intros Hm fs o fs' tr H E. rewrite ensure_dir_there in E by (now apply so_has). injection E as <- <- <-.
    split; [exact H|]. constructor; [left; exact H|constructor].
  Qed.
  (** Files of the backend may be changed in any way. *)
  Lemma so_file fs fs' m k : SO fs -> In m l -> k = sql_name bn "up" \/ k = sql_name bn "down" ->
    frame m fs fs' -> has_dir fs' m -> fs_gitignore fs' = fs_gitignore fs ->
    (forall k', k' <> k -> get_file m k' fs' = get_file m k' fs) -> SO fs'.
  Proof.
    intros [OK St Gi Di Ou Fi In_ Ba] Hm Hk (OK' & SOu & St') HD Gi' G.
    assert (GG : forall m' k', k' <> sql_name bn "up" -> k' <> sql_name bn "down" -> get_file m' k' fs' = get_file m' k' fs).
    { intros m' k' N1 N2. destruct (string_dec m' m) as [->|N].
      - apply G. destruct Hk as [->| ->]; assumption.
      - now apply (get_file_same m). }
    assert (GI : forall m', get_file m' "info.json" fs' = get_file m' "info.json" fs).
    { intros m'. apply GG; intros E; symmetry in E; now apply sql_name_info in E. }
    split; [exact OK'|congruence|congruence| | | | |].
    - intros m'. rewrite <- Di. destruct (string_dec m' m) as [->|N].
      + split; intros _; [|exact HD]. apply so_has; [split; assumption|exact Hm].
      + now apply (dir_same m).
    - intros m' N. rewrite <- Ou by exact N. apply SOu. congruence.
    - intros m' k' N1 N2 N3. rewrite GG by assumption. now apply Fi.
    - intros m' i Hi. destruct (In_ m' i Hi) as (i' & E & R). exists i'. split; [|exact R].
      rewrite <- E. apply read_info_same, GI.
    - intros m' N. rewrite GI. now apply Ba.
  Qed.
  Lemma set_git d n f fs : fs_gitignore (set_file d n f fs) = fs_gitignore fs.
  Proof. unfold set_file. destruct (mget d (fs_dirs fs)); reflexivity. Qed.
  Lemma del_git d n fs : fs_gitignore (del_file d n fs) = fs_gitignore fs.
  Proof. unfold del_file. destruct (mget d (fs_dirs fs)); reflexivity. Qed.
  Lemma so_set fs m k f : SO fs -> In m l -> k = sql_name bn "up" \/ k = sql_name bn "down" -> SO (set_file m k f fs).
  Proof.
    intros H Hm Hk. pose proof (so_ok _ _ _ _ H) as OK. pose proof (so_has _ _ H Hm) as HD.
    destruct (set_file_get m k f fs OK HD) as [HD' G].
    eapply so_file; [exact H|exact Hm|exact Hk|apply set_file_frame, OK|exact HD'|apply set_git|].
    intros k' N. rewrite G. now rewrite (proj2 (String.eqb_neq _ _)).
  Qed.
  Lemma so_del fs m k : SO fs -> In m l -> k = sql_name bn "up" \/ k = sql_name bn "down" -> SO (del_file m k fs).
  Proof.
    intros H Hm Hk. pose proof (so_ok _ _ _ _ H) as OK. pose proof (so_has _ _ H Hm) as HD.
    destruct (del_file_get m k fs OK HD) as [HD' G].
    eapply so_file; [exact H|exact Hm|exact Hk|apply del_file_frame, OK|exact HD'|apply del_git|].
    intros k' N. rewrite G. now rewrite (proj2 (String.eqb_neq _ _)).
  Qed.
  Lemma safe_step f : (forall fs, SO fs -> SO (f fs)) -> safe (fstep f).
  Proof. intros Hf fs o fs' tr H [= <- <- <-]. split; [auto|]. constructor; [left; auto|constructor]. Qed.
  Lemma safe_steps fl : (forall f, In f fl -> forall fs, SO fs -> SO (f fs)) -> safe (fsteps fl).
  Proof.
    induction fl as [|f fl IH]; intros Hf; cbn [fsteps]; [apply safe_ret|].
    apply safe_bind; [apply safe_step, Hf; cbn; auto|]. intros _. apply IH. intros g Hg. apply Hf. cbn. auto.
  Qed.
  Lemma safe_write m k f : In m l -> k = sql_name bn "up" \/ k = sql_name bn "down" -> safe (write_contents m k f).
  Proof.
    intros Hm Hk. unfold write_contents. apply safe_bind; [now apply safe_ensure|]. intros _.
    apply safe_bind; [apply safe_lift|]. intros g. unfold write_file. apply safe_steps.
    intros h Hh fs H. apply write_steps_in in Hh as [f' ->]. now apply so_set.
  Qed.
  Lemma safe_delete m k : In m l -> k = sql_name bn "up" \/ k = sql_name bn "down" -> safe (fs_delete_file m k).
  Proof.
    intros Hm Hk. unfold fs_delete_file. apply safe_bind; [now apply safe_ensure|]. intros _.
    apply safe_bind; [apply safe_read|]. intros [f|]; [|apply safe_lift]. apply safe_step. intros fs H. now apply so_del.
  Qed.
  Lemma safe_info m i i' fs o fs' tr : SO fs -> In m l -> read_info m fs = Ok i ->
    in_from i' = in_from i -> in_bases i' = in_bases i -> not_bn bn (in_backends i') = not_bn bn (in_backends i) ->
    write_info m i' fs = (o, fs', tr) -> SO fs' /\ Forall safe_at tr.
  Proof.
    intros H Hm Ei F B N E. pose proof (so_has _ _ H Hm) as HD. pose proof (so_ok _ _ _ _ H) as OK.
    unfold write_info, write_contents in E. unfold fbind at 1 in E. rewrite ensure_dir_there in E by exact HD.
    cbn in E. injection E as <- <- <-.
    assert (HDt : has_dir (set_file m "info.json" (FTorn "") fs) m) by (now apply set_file_get).
    assert (OKt : fs_ok (set_file m "info.json" (FTorn "") fs)) by (now apply (set_file_frame m)).
    destruct (set_file_get m "info.json" (FInfo i') _ OKt HDt) as [HD' G'].
    destruct (set_file_get m "info.json" (FTorn "") _ OK HD) as [_ G].
    set (y := set_file m "info.json" (FInfo i') (set_file m "info.json" (FTorn "") fs)) in *.
    assert (FR : frame m fs y) by (eapply frame_trans; apply set_file_frame; assumption).
    assert (Y : SO y).
    { pose proof H as [OK0 St Gi Di Ou Fi In_ Ba]. destruct FR as (OKy & SOy & Sty).
      split; [exact OKy|congruence| | | | | |].
      - unfold y. now rewrite !set_git.
      - intros m'. rewrite <- Di. destruct (string_dec m' m) as [->|Nm]; [tauto|now apply (dir_same m)].
      - intros m' Nm. rewrite <- Ou by exact Nm. apply SOy. congruence.
      - intros m' k N1 N2 N3. rewrite <- Fi by assumption. destruct (string_dec m' m) as [->|Nm].
        + rewrite G', G, !(proj2 (String.eqb_neq _ _) N3). reflexivity.
        + now apply (get_file_same m).
      - intros m' j Hj. destruct (In_ m' j Hj) as (j' & E & F' & B' & N'). destruct (string_dec m' m) as [->|Nm].
        + rewrite Ei in E. injection E as <-. exists i'. split; [apply read_info_set; rewrite G'; reflexivity|].
          split; [congruence|]. split; congruence.
        + exists j'. split; [|auto]. rewrite <- E. apply read_info_same. now apply (get_file_same m).
      - intros m' Nm'. destruct (string_dec m' m) as [->|Nm].
        + exfalso. destruct (read_info m fs0) as [j| |] eqn:Ej.
          * now apply (Nm' j).
          * rewrite (read_info_same m fs0 fs) in Ei by (apply Ba; intros ? X; congruence). congruence.
          * rewrite (read_info_same m fs0 fs) in Ei by (apply Ba; intros ? X; congruence). congruence.
        + rewrite <- Ba by exact Nm'. now apply (get_file_same m). }
    split; [exact Y|]. constructor; [left; exact H|]. constructor.
    - right. exists m. split; [exact Hm|]. rewrite G. reflexivity.
    - constructor; [left; exact Y|constructor].
  Qed.
  Lemma not_bn_app a : not_bn bn (a ++ [bn]) = not_bn bn a.
  Proof. unfold not_bn. rewrite filter_app. cbn. rewrite String.eqb_refl. cbn. apply app_nil_r. Qed.
  Lemma not_bn_idem a : not_bn bn (not_bn bn a) = not_bn bn a.
  Proof.
    unfold not_bn. induction a as [|x a IH]; cbn; [reflexivity|]. destruct (negb (String.eqb x bn)) eqn:E; cbn; [|exact IH].
    now rewrite E, IH.
  Qed.
  Lemma safe_add_sql m up down : In m l -> safe (fs_add_sql m bn up down).
  Proof.
    intros Hm. unfold fs_add_sql. apply safe_bind; [apply safe_write; auto|]. intros _.
    apply safe_bind; [apply safe_write; auto|]. intros _.
    intros fs o fs' tr H E. unfold fbind at 1, fread at 1 in E. destruct (read_info m fs) as [i|e|] eqn:Ei.
    - destruct (existsb _ _); [now apply (safe_ret tt fs o fs' tr)|].
      destruct (write_info m _ fs) as [[o1 fs1] t1] eqn:Ew. injection E as <- <- <-.
      eapply safe_info in Ew; eauto. cbn. apply not_bn_app.
    - injection E as <- <- <-. auto.
    - injection E as <- <- <-. auto.
  Qed.
  Lemma safe_remove_sql m : In m l -> safe (fs_remove_sql m bn).
  Proof.
    intros Hm. unfold fs_remove_sql. apply safe_bind; [apply safe_delete; auto|]. intros _.
    apply safe_bind; [apply safe_delete; auto|]. intros _.
    intros fs o fs' tr H E. unfold fbind at 1, fread at 1 in E. destruct (read_info m fs) as [i|e|] eqn:Ei.
    - destruct (write_info m _ fs) as [[o1 fs1] t1] eqn:Ew. injection E as <- <- <-.
      eapply safe_info in Ew; eauto. cbn. apply not_bn_idem.
    - injection E as <- <- <-. auto.
    - injection E as <- <- <-. auto.
  Qed.
  Lemma safe_db ls m : In m l -> safe (fs_db ls m).
  Proof. intros Hm. unfold fs_db. apply safe_bind; [now apply safe_ensure|]. intros _. apply safe_read. Qed.
  Lemma safe_add_scripts ls b : b_name b = bn -> forall r from_db, incl r l -> safe (add_scripts ls b from_db r).
  Proof.
    intros Eb. induction r as [|m r IH]; intros d Hr; cbn [add_scripts]; [apply safe_ret|].
    assert (Hm : In m l) by (apply Hr; cbn; auto).
    apply safe_bind; [now apply safe_db|]. intros to. apply safe_bind; [apply safe_lift|]. intros [|op ops]; [apply safe_lift|].
    apply safe_bind; [apply safe_lift|]. intros up. apply safe_bind; [apply safe_lift|]. intros dops.
    apply safe_bind; [apply safe_lift|]. intros down. apply safe_bind; [rewrite Eb; now apply safe_add_sql|]. intros _.
    apply IH. intros x Hx. apply Hr. cbn. auto.
  Qed.
  Lemma safe_remove_scripts r : incl r l -> safe (remove_scripts bn r).
  Proof.
    induction r as [|m r IH]; intros Hr; cbn [remove_scripts]; [apply safe_ret|].
    apply safe_bind; [apply safe_remove_sql, Hr; cbn; auto|]. intros _. apply IH. intros x Hx. apply Hr. cbn. auto.
  Qed.
End Scripts.

(** * What such a difference leaves alone *)
Lemma schema_files fs x n d : fs_ok fs -> fs_ok x ->
  (forall m k, ends_with k ".table" = true \/ k = "types.json"%string -> get_file m k x = get_file m k fs) ->
  omap in_bases (read_info n x) = omap in_bases (read_info n fs) ->
  fs_schema fs n d -> fs_schema x n d.
Proof.
  intros OK OKx G EB H ls PL.
  set (p := fun k => ends_with k ".table" || String.eqb k "types.json").
  set (T := filter p (ls (dir_files n x)) ++ filter (fun k => negb (p k)) (dir_files n fs)).
  set (ls0 := fun L : list string => if list_eq_dec string_dec L (dir_files n fs) then T else L).
  assert (PT : Permutation T (dir_files n fs)).
  { unfold T. transitivity (filter p (dir_files n fs) ++ filter (fun k => negb (p k)) (dir_files n fs)).
    - apply Permutation_app_tail. apply NoDup_Permutation.
      + apply NoDup_filter. eapply Permutation_NoDup; [symmetry; apply PL|].
        unfold dir_files. destruct (mget n (fs_dirs x)) eqn:E; [|constructor]. apply sorted_NoDup. eapply OKx, E.
      + apply NoDup_filter. unfold dir_files. destruct (mget n (fs_dirs fs)) eqn:E; [|constructor]. apply sorted_NoDup. eapply OK, E.
      + intros k. rewrite !filter_In. split; intros [A B]; (split; [|exact B]).
        * eapply Permutation_in in A; [|apply PL]. apply dir_files_In in A as [f A]. apply dir_files_In. exists f.
          rewrite <- G; [exact A|]. unfold p in B. apply orb_true_iff in B as [B|B]; [auto|]. apply String.eqb_eq in B. auto.
        * eapply Permutation_in; [symmetry; apply PL|]. apply dir_files_In in A as [f A]. apply dir_files_In. exists f.
          rewrite G; [exact A|]. unfold p in B. apply orb_true_iff in B as [B|B]; [auto|]. apply String.eqb_eq in B. auto.
    - clear. induction (dir_files n fs) as [|k r IH]; cbn; [constructor|]. destruct (p k); cbn.
      + now constructor.
      + apply Permutation_sym, Permutation_cons_app, Permutation_sym, IH. }
  assert (L0 : listing ls0).
  { intros L. unfold ls0. destruct (list_eq_dec string_dec L (dir_files n fs)) as [->|_]; [exact PT|reflexivity]. }
  specialize (H ls0 L0). unfold fs_read_db in *.
  destruct (read_info n fs) as [i|e|] eqn:Ei; cbn [omap obind] in *; try discriminate.
  destruct (read_info n x) as [i'|e'|] eqn:Ei'; cbn [omap obind] in *; try discriminate. injection EB as ->.
  rewrite (ofold_ext _ (fun db q => omap (replace_table db) (read_table (snd q) (table_file (fst q)) fs))).
  2: { intros q b _. unfold read_table. rewrite G; [reflexivity|]. left. apply table_file_ends. }
  destruct (ofold _ (in_bases i) adb_new) as [db| |]; cbn [obind] in *; try discriminate.
  assert (E : ofold (fs_entry n x) (ls (dir_files n x)) db = ofold (fs_entry n fs) (ls0 (dir_files n fs)) db); [|now rewrite E].
  unfold ls0. destruct (list_eq_dec string_dec (dir_files n fs) (dir_files n fs)) as [_|N]; [|congruence].
  assert (SK : forall y k b, p k = false -> fs_entry n y b k = Ok b).
  { intros y k b Hk. unfold p in Hk. apply orb_false_iff in Hk as [A B]. unfold fs_entry. now rewrite A, B. }
  rewrite (ofold_skip (fs_entry n x) p) by (intros; now apply SK).
  rewrite (ofold_skip (fs_entry n fs) p T) by (intros; now apply SK).
  unfold T. rewrite filter_app.
  assert (FF : filter p (filter (fun k => negb (p k)) (dir_files n fs)) = []).
  { clear. induction (dir_files n fs) as [|k r IH]; cbn; [reflexivity|]. destruct (p k) eqn:E; cbn; [exact IH|now rewrite E, IH]. }
  assert (FI : forall L, filter p (filter p L) = filter p L).
  { clear. induction L as [|k r IH]; cbn; [reflexivity|]. destruct (p k) eqn:E; cbn; [now rewrite E, IH|exact IH]. }
  rewrite FF, FI, app_nil_r. apply ofold_ext. intros k b Hk. apply filter_In in Hk as [_ Hk]. unfold fs_entry, read_table.
  destruct (ends_with k ".table") eqn:Et; [now rewrite G by auto|].
  destruct (String.eqb_spec k "types.json") as [->|Nk]; [now rewrite G by auto|reflexivity].
Qed.

Lemma so_bases l bn fs x m : script_only l bn fs x -> omap in_bases (read_info m x) = omap in_bases (read_info m fs).
Proof.
  intros H. destruct (read_info m fs) as [i|e|] eqn:E.
  - destruct (so_info _ _ _ _ H m i E) as (i' & -> & _ & B & _). cbn. now rewrite B.
  - rewrite (read_info_same m fs x), E; [reflexivity|]. apply (so_bad _ _ _ _ H). intros i X. congruence.
  - rewrite (read_info_same m fs x), E; [reflexivity|]. apply (so_bad _ _ _ _ H). intros i X. congruence.
Qed.
Lemma so_from l bn fs x m : script_only l bn fs x -> omap in_from (read_info m x) = omap in_from (read_info m fs).
Proof.
  intros H. destruct (read_info m fs) as [i|e|] eqn:E.
  - destruct (so_info _ _ _ _ H m i E) as (i' & -> & B & _ & _). cbn. now rewrite B.
  - rewrite (read_info_same m fs x), E; [reflexivity|]. apply (so_bad _ _ _ _ H). intros i X. congruence.
  - rewrite (read_info_same m fs x), E; [reflexivity|]. apply (so_bad _ _ _ _ H). intros i X. congruence.
Qed.
Lemma so_plain l bn fs x m k : script_only l bn fs x -> ends_with k ".table" = true \/ k = "types.json"%string ->
  get_file m k x = get_file m k fs.
Proof.
  intros H Hk. apply (so_files _ _ _ _ H).
  - intros ->. destruct Hk as [Hk|Hk]; [now rewrite sql_name_ends in Hk|now apply sql_name_types in Hk].
  - intros ->. destruct Hk as [Hk|Hk]; [now rewrite sql_name_ends in Hk|now apply sql_name_types in Hk].
  - intros ->. destruct Hk as [Hk|Hk]; discriminate.
Qed.
Lemma so_schema l bn fs x m d : fs_ok fs -> script_only l bn fs x -> (fs_schema x m d <-> fs_schema fs m d).
Proof.
  intros OK H. pose proof (so_ok _ _ _ _ H) as OKx. split; apply schema_files; auto.
  - intros m' k Hk. symmetry. eapply so_plain; eauto.
  - symmetry. eapply so_bases; eauto.
  - intros m' k Hk. eapply so_plain; eauto.
  - eapply so_bases; eauto.
Qed.
Lemma so_latest l bn fs x : script_only l bn fs x -> fs_latest x = fs_latest fs.
Proof.
  intros H. unfold fs_latest, get_state. rewrite (so_state _ _ _ _ H). destruct (fs_state fs) as [[]|]; try reflexivity.
  destruct latest as [n|]; [|reflexivity]. pose proof (so_dirs _ _ _ _ H n) as D. unfold fs_get, has_dir in *.
  destruct (mget n (fs_dirs x)), (mget n (fs_dirs fs)); try reflexivity; exfalso.
  - destruct (proj1 D); [eauto|discriminate].
  - destruct (proj2 D); [eauto|discriminate].
Qed.
(** Stores with the same directories and predecessors have the same chains. *)
Lemma chain_to_alike fs x m l : (forall n, has_dir fs n -> has_dir x n) ->
  (forall n, In n l -> omap in_from (read_info n x) = omap in_from (read_info n fs)) ->
  chain_to (fs_coll fs) m l -> chain_to (fs_coll x) m l.
Proof.
  intros D F C. induction C as [m0 Fm|m0 p l0 (n & E & G) C IH].
  - constructor. unfold is_first in *. cbn in *. rewrite F; [exact Fm|cbn; auto].
  - apply (ch_next _ m0 p l0).
    + exists n. cbn in *. split; [rewrite F; [exact E|apply in_or_app; cbn; auto]|].
      apply fs_get_dir in G as [-> G]. apply fs_get_dir. auto.
    + apply IH. intros y Hy. apply F. apply in_or_app. auto.
Qed.
Lemma chain_alike fs x l : (forall n, has_dir fs n -> has_dir x n) -> fs_latest x = fs_latest fs ->
  (forall n, In n l -> omap in_from (read_info n x) = omap in_from (read_info n fs)) ->
  chain (fs_coll fs) l -> chain (fs_coll x) l.
Proof.
  intros D L F C. unfold chain in *. cbn [cl_latest fs_coll] in *. rewrite L. destruct (fs_latest fs); [|exact C].
  now apply (chain_to_alike fs x).
Qed.
Lemma chain_has fs l m : chain (fs_coll fs) l -> In m l -> has_dir fs m.
Proof.
  intros C H. unfold chain in C. cbn [cl_latest fs_coll] in C. destruct (fs_latest fs) as [n|] eqn:E; [|subst l; destruct H].
  eapply chain_dirs; eauto. now apply latest_dir.
Qed.
Lemma so_same l bn fs x : fs_ok fs -> chain (fs_coll fs) l -> script_only l bn fs x ->
  same_migrations fs x l /\ same_scripts_but bn fs x l /\ same_rest fs x l.
Proof.
  intros OK C H. split; [|split].
  - split; [|intros m d _; eapply so_schema; eauto].
    apply (chain_alike fs); auto.
    + intros n. apply (so_dirs _ _ _ _ H).
    + eapply so_latest; eauto.
    + intros n _. eapply so_from; eauto.
  - intros m Hm. split.
    + intros b dir Nb Hd. unfold read_sql. rewrite (so_files _ _ _ _ H m (sql_name b dir)); [reflexivity| | |apply sql_name_info].
      * destruct Hd as [->| ->]; intros E; [apply sql_name_inj in E; congruence|symmetry in E; now apply sql_up_down in E].
      * destruct Hd as [->| ->]; intros E; [now apply sql_up_down in E|apply sql_name_inj in E; congruence].
    + intros i i' Ei Ei'. destruct (so_info _ _ _ _ H m i Ei) as (j & Ej & _ & _ & N). rewrite Ei' in Ej. injection Ej as <-. exact N.
  - split; [apply H|]. split; apply H.
Qed.

(** * What adding and removing achieve *)
Lemma write_runs m k f f' fs : fs_ok fs -> nl_terminated f = Ok f' ->
  exists fs' tr, write_contents m k f fs = (Ok tt, fs', tr) /\ fs_ok fs' /\ has_dir fs' m /\
    (forall k', get_file m k' fs' = if String.eqb k' k then Some f' else get_file m k' fs) /\ frame m fs fs'.
Proof.
  intros OK E. destruct (write_contents m k f fs) as [[o fs'] tr] eqn:W.
  destruct (write_contents_frame m k f _ _ _ _ OK W) as [FR _].
  assert (o = Ok tt) as ->.
  { unfold write_contents, fbind in W. destruct (ensure_dir m fs) as [[o1 fs1] t1] eqn:E1. unfold ensure_dir, fstep in E1.
    injection E1 as <- <- <-. unfold flift in W. rewrite E in W. unfold write_file in W.
    destruct (fsteps_run (map (set_file m k) (partials f') ++ [set_file m k f'])
      (match mget m (fs_dirs fs) with Some _ => fs | None => {| fs_dirs := mput m [] (fs_dirs fs); fs_state := fs_state fs; fs_gitignore := fs_gitignore fs |} end)) as [t2 Et].
    rewrite Et in W. injection W as <- _ _. reflexivity. }
  pose proof W as W'. apply write_contents_get in W' as (g & Eg & HD & G); [|exact OK]. rewrite E in Eg. injection Eg as <-.
  exists fs', tr. split; [reflexivity|]. split; [apply FR|]. auto.
Qed.
Lemma nl_runs s : s <> ""%string -> nl_terminated (FSql s) = Ok (FSql (with_newline s)).
Proof. intros N. cbn. rewrite (proj2 (String.eqb_neq _ _) N). reflexivity. Qed.
Definition with_backend (bn : string) (i : Info) : Info :=
  {| in_from := in_from i; in_bases := in_bases i;
     in_backends := if existsb (String.eqb bn) (in_backends i) then in_backends i else in_backends i ++ [bn] |}.
Definition without_backend (bn : string) (i : Info) : Info :=
  {| in_from := in_from i; in_bases := in_bases i; in_backends := not_bn bn (in_backends i) |}.
Lemma info_eta i : {| in_from := in_from i; in_bases := in_bases i; in_backends := in_backends i |} = i.
Proof. now destruct i. Qed.
Lemma up_down_ne b : sql_name b "up" <> sql_name b "down".
Proof. apply sql_up_down. Qed.

Lemma add_sql_ok m bn up down fs u fs' tr : fs_ok fs -> fs_add_sql m bn up down fs = (Ok u, fs', tr) ->
  exists i, read_info m fs = Ok i /\ read_info m fs' = Ok (with_backend bn i) /\
    read_sql m bn "up" fs' = Ok (Some (with_newline up)) /\ read_sql m bn "down" fs' = Ok (Some (with_newline down)) /\
    up <> ""%string /\ down <> ""%string.
Proof.
  intros OK H. unfold fs_add_sql in H.
  apply fbind_ok in H as ([] & fs1 & t1 & t2 & E1 & H & _). apply fbind_ok in H as ([] & fs2 & t3 & t4 & E2 & H & _).
  apply fbind_ok in H as (i & fs3 & t5 & t6 & E3 & H & _). apply fread_ok in E3 as (E3 & -> & ->).
  pose proof (proj1 (write_contents_frame _ _ _ _ _ _ _ OK E1)) as FR1. pose proof (proj1 FR1) as OK1.
  pose proof (proj1 (write_contents_frame _ _ _ _ _ _ _ OK1 E2)) as FR2. pose proof (proj1 FR2) as OK2.
  apply write_contents_get in E1 as (f1 & N1 & HD1 & G1); [|exact OK].
  apply write_contents_get in E2 as (f2 & N2 & HD2 & G2); [|exact OK1].
  assert (U : up <> ""%string) by (intros ->; discriminate). assert (D : down <> ""%string) by (intros ->; discriminate).
  apply nl_sql in N1 as ->. apply nl_sql in N2 as ->.
  assert (I2 : read_info m fs2 = read_info m fs).
  { apply read_info_same. rewrite G2, G1.
    rewrite !(proj2 (String.eqb_neq _ _)); [reflexivity| |]; intros X; symmetry in X; now apply sql_name_info in X. }
  exists i. rewrite <- I2. split; [exact E3|].
  assert (UP : get_file m (sql_name bn "up") fs2 = Some (FSql (with_newline up))).
  { rewrite G2, (proj2 (String.eqb_neq _ _)) by apply up_down_ne. rewrite G1, String.eqb_refl. reflexivity. }
  assert (DN : get_file m (sql_name bn "down") fs2 = Some (FSql (with_newline down))).
  { rewrite G2, String.eqb_refl. reflexivity. }
  unfold with_backend. destruct (existsb _ _).
  - injection H as <- <- _. rewrite info_eta. split; [exact E3|]. unfold read_sql. rewrite UP, DN. auto.
  - apply write_contents_get in H as (f3 & N3 & HD3 & G3); [|exact OK2]. cbn in N3. injection N3 as <-.
    split; [apply read_info_set; rewrite G3; reflexivity|].
    unfold read_sql. rewrite !G3, !(proj2 (String.eqb_neq _ _)) by apply sql_name_info. rewrite UP, DN. auto.
Qed.
Lemma add_sql_runs m bn up down fs i : fs_ok fs -> up <> ""%string -> down <> ""%string -> read_info m fs = Ok i ->
  exists fs' tr, fs_add_sql m bn up down fs = (Ok tt, fs', tr).
Proof.
  intros OK U D I. unfold fs_add_sql.
  destruct (write_runs m (sql_name bn "up") _ _ fs OK (nl_runs up U)) as (fs1 & t1 & E1 & OK1 & _ & G1 & _).
  destruct (write_runs m (sql_name bn "down") _ _ fs1 OK1 (nl_runs down D)) as (fs2 & t2 & E2 & OK2 & _ & G2 & _).
  assert (I2 : read_info m fs2 = Ok i).
  { rewrite <- I. apply read_info_same. rewrite G2, G1.
    rewrite !(proj2 (String.eqb_neq _ _)); [reflexivity| |]; intros X; symmetry in X; now apply sql_name_info in X. }
  unfold fbind. rewrite E1, E2. unfold fread. rewrite I2. destruct (existsb _ _); [eexists _, _; reflexivity|].
  match goal with |- context [write_info m ?j fs2] => destruct (write_runs m "info.json" (FInfo j) _ fs2 OK2 eq_refl) as (fs3 & t3 & E3 & _) end.
  unfold write_info. rewrite E3. eexists _, _; reflexivity.
Qed.

Section AddLoop.
  Variables (ls : list string -> list string) (b : Backend) (sch : string -> ADB).
  Hypothesis PL : listing ls.
  Lemma db_reads m fs d : has_dir fs m -> fs_schema fs m d -> fs_db ls m fs = (Ok d, fs, [fs]).
  Proof. intros D S. unfold fs_db, fbind. rewrite ensure_dir_there by exact D. unfold fread. now rewrite (S ls PL). Qed.
  Lemma one_safe m fs up down o fs' tr : fs_ok fs -> has_dir fs m -> fs_add_sql m (b_name b) up down fs = (o, fs', tr) ->
    script_only [m] (b_name b) fs fs'.
  Proof.
    intros OK D E. assert (DD : forall x, In x [m] -> has_dir fs x) by (intros x [<-|[]]; exact D).
    refine (proj1 (safe_add_sql [m] (b_name b) fs DD m up down _ fs o fs' tr _ E)); [now left|apply so_refl, OK].
  Qed.
  Lemma last_cons {A} (x d : A) r : last (x :: r) d = last r x.
  Proof.
    revert x d. induction r as [|y r IH]; intros x d; [reflexivity|]. change (last (x :: y :: r) d) with (last (y :: r) d).
    now rewrite (IH y d), (IH y x).
  Qed.
  Lemma add_effect : forall r from_db fs u fs' tr, fs_ok fs -> NoDup r ->
    (forall m, In m r -> has_dir fs m /\ fs_schema fs m (sch m)) ->
    add_scripts ls b from_db r fs = (Ok u, fs', tr) ->
    forall a m q, r = a ++ m :: q -> exists up down i,
      backend_scripts b (last (map sch a) from_db) (sch m) up down /\
      read_sql m (b_name b) "up" fs' = Ok (Some (with_newline up)) /\
      read_sql m (b_name b) "down" fs' = Ok (Some (with_newline down)) /\
      read_info m fs = Ok i /\ read_info m fs' = Ok (with_backend (b_name b) i).
  Proof.
    induction r as [|m0 r IH]; intros from_db fs u fs' tr OK ND HR H a m q E; [destruct a; discriminate|].
    cbn [add_scripts] in H. destruct (HR m0 (or_introl eq_refl)) as [D0 S0].
    apply fbind_ok in H as (to & fs1 & t1 & t2 & E1 & H & _). rewrite (db_reads m0 fs _ D0 S0) in E1. injection E1 as <- <- _.
    apply fbind_ok in H as (ops & fs2 & t3 & t4 & E2 & H & _). unfold flift in E2. injection E2 as E2 <- _.
    destruct ops as [|op ops]; [discriminate|]. set (ops0 := op :: ops) in *.
    apply fbind_ok in H as (up & fs3 & t5 & t6 & E3 & H & _). unfold flift in E3. injection E3 as E3 <- _.
    apply fbind_ok in H as (dops & fs4 & t7 & t8 & E4 & H & _). unfold flift in E4. injection E4 as E4 <- _.
    apply fbind_ok in H as (down & fs5 & t9 & t10 & E5 & H & _). unfold flift in E5. injection E5 as E5 <- _.
    apply fbind_ok in H as (v & fs6 & t11 & t12 & E6 & H & _).
    pose proof (one_safe _ _ _ _ _ _ _ OK D0 E6) as SO1. pose proof (so_ok _ _ _ _ SO1) as OK6.
    inversion_clear ND as [|? ? N0 ND'].
    assert (HR' : forall x, In x r -> has_dir fs6 x /\ fs_schema fs6 x (sch x)).
    { intros x Hx. destruct (HR x (or_intror Hx)) as [A B]. split; [now apply (so_dirs _ _ _ _ SO1)|].
      apply (so_schema _ _ _ _ _ _ OK SO1), B. }
    assert (DD : forall x, In x r -> has_dir fs6 x) by (intros x Hx; apply HR', Hx).
    pose proof (proj1 (safe_add_scripts r (b_name b) fs6 DD ls b eq_refl r _ (incl_refl r) _ _ _ _ (so_refl r (b_name b) fs6 OK6) H)) as SO2.
    destruct a as [|x a].
    - injection E as <- <-. destruct (add_sql_ok _ _ _ _ _ _ _ _ OK E6) as (i & I & I' & U & W & _ & _).
      assert (G : forall k, get_file m0 k fs' = get_file m0 k fs6).
      { intros k. unfold get_file. now rewrite (so_out _ _ _ _ SO2 m0 N0). }
      exists up, down, i. split.
      { exists ops0, dops. split; [exact E2|]. split; [exact E4|]. split; [|exact E5]. cbn [map last].
        rewrite <- E3. unfold first_ops. now destruct (a_tables from_db). }
      unfold read_sql in *. rewrite !G. split; [exact U|]. split; [exact W|]. split; [exact I|].
      rewrite <- I'. apply read_info_same, G.
    - injection E as <- E. destruct (IH _ _ _ _ _ OK6 ND' HR' H a m q E) as (up' & down' & i & A & B & C & I & I').
      exists up', down', i. cbn [map]. rewrite last_cons. split; [exact A|]. split; [exact B|]. split; [exact C|].
      split; [|exact I']. rewrite <- I. apply read_info_same. unfold get_file.
      rewrite (so_out _ _ _ _ SO1 m); [reflexivity|]. intros [->|[]]. apply N0. rewrite E. apply in_or_app. cbn. auto.
  Qed.
  Lemma add_runs : forall r from_db fs, fs_ok fs -> NoDup r ->
    (forall m, In m r -> has_dir fs m /\ fs_schema fs m (sch m) /\ exists i, read_info m fs = Ok i) ->
    (forall a m q, r = a ++ m :: q -> diff_out (last (map sch a) from_db) (sch m) <> Ok [] /\
       exists up down, backend_scripts b (last (map sch a) from_db) (sch m) up down /\ up <> ""%string /\ down <> ""%string) ->
    exists fs' tr, add_scripts ls b from_db r fs = (Ok tt, fs', tr).
  Proof.
    induction r as [|m0 r IH]; intros from_db fs OK ND HR HS; [eexists _, _; reflexivity|].
    cbn [add_scripts]. destruct (HR m0 (or_introl eq_refl)) as (D0 & S0 & i & I0).
    destruct (HS [] m0 r eq_refl) as (ND0 & up & down & (ops & dops & E2 & E4 & E3 & E5) & U & W). cbn [map last] in *.
    unfold fbind. rewrite (db_reads m0 fs _ D0 S0). unfold flift. rewrite E2. destruct ops as [|op ops]; [congruence|].
    set (ops0 := op :: ops) in *.
    destruct (add_sql_runs m0 (b_name b) up down fs i OK U W I0) as (fs6 & t6 & E6).
    pose proof (one_safe _ _ _ _ _ _ _ OK D0 E6) as SO1. pose proof (so_ok _ _ _ _ SO1) as OK6.
    inversion_clear ND as [|? ? N0 ND'].
    destruct (IH (sch m0) fs6 OK6 ND') as (fs' & tr & E7).
    - intros x Hx. destruct (HR x (or_intror Hx)) as (A & B & j & Ij). split; [now apply (so_dirs _ _ _ _ SO1)|].
      split; [apply (so_schema _ _ _ _ _ _ OK SO1), B|]. destruct (so_info _ _ _ _ SO1 x j Ij) as (j' & X & _). eauto.
    - intros a m q E. specialize (HS (m0 :: a) m q). cbn [map] in HS. rewrite last_cons in HS. apply HS. cbn. congruence.
    - assert (E3' : b_sql b from_db (match a_tables from_db with [] => ops0 ++ [AddTableIfNotExists migrations_table] | _ => ops0 end) = Ok up).
      { rewrite <- E3. unfold first_ops. now destruct (a_tables from_db). }
      cbv zeta. rewrite E3', E4, E5, E6, E7. eexists _, _; reflexivity.
  Qed.
End AddLoop.

Lemma delete_file_ok m k fs u fs' tr : fs_ok fs -> has_dir fs m -> fs_delete_file m k fs = (Ok u, fs', tr) ->
  (exists f, get_file m k fs = Some f) /\ fs' = del_file m k fs.
Proof.
  intros OK D H. unfold fs_delete_file in H. apply fbind_ok in H as (v & fs1 & t1 & t2 & E1 & H & _).
  rewrite ensure_dir_there in E1 by exact D. injection E1 as <- <- _.
  apply fbind_ok in H as (o & fs2 & t3 & t4 & E2 & H & _). apply fread_ok in E2 as (E2 & -> & _). injection E2 as <-.
  destruct (get_file m k fs) as [f|]; [|discriminate]. injection H as <- <- _. eauto.
Qed.
Lemma delete_file_runs m k fs f : has_dir fs m -> get_file m k fs = Some f ->
  fs_delete_file m k fs = (Ok tt, del_file m k fs, [fs; del_file m k fs]).
Proof.
  intros D G. unfold fs_delete_file, fbind. rewrite ensure_dir_there by exact D. unfold fread. rewrite G. reflexivity.
Qed.
Lemma remove_sql_ok m bn fs u fs' tr : fs_ok fs -> has_dir fs m -> fs_remove_sql m bn fs = (Ok u, fs', tr) ->
  exists i, read_info m fs = Ok i /\ read_info m fs' = Ok (without_backend bn i) /\
    read_sql m bn "up" fs' = Ok None /\ read_sql m bn "down" fs' = Ok None.
Proof.
  intros OK D H. unfold fs_remove_sql in H.
  apply fbind_ok in H as (u1 & fs1 & t1 & t2 & E1 & H & _). apply fbind_ok in H as (u2 & fs2 & t3 & t4 & E2 & H & _).
  apply fbind_ok in H as (i & fs3 & t5 & t6 & E3 & H & _). apply fread_ok in E3 as (E3 & -> & ->).
  apply delete_file_ok in E1 as [_ ->]; [|assumption..].
  destruct (del_file_get m (sql_name bn "up") fs OK D) as [D1 G1].
  assert (OK1 : fs_ok (del_file m (sql_name bn "up") fs)) by (now apply (del_file_frame m)).
  apply delete_file_ok in E2 as [_ ->]; [|assumption..].
  destruct (del_file_get m (sql_name bn "down") _ OK1 D1) as [D2 G2].
  set (fs2 := del_file m (sql_name bn "down") (del_file m (sql_name bn "up") fs)) in *.
  assert (OK2 : fs_ok fs2) by (now apply (del_file_frame m)).
  assert (I2 : read_info m fs2 = read_info m fs).
  { apply read_info_same. rewrite G2, G1.
    rewrite !(proj2 (String.eqb_neq _ _)); [reflexivity| |]; intros X; symmetry in X; now apply sql_name_info in X. }
  exists i. rewrite <- I2. split; [exact E3|].
  apply write_contents_get in H as (f3 & N3 & HD3 & G3); [|exact OK2]. cbn in N3. injection N3 as <-.
  split; [apply read_info_set; rewrite G3; reflexivity|].
  unfold read_sql. rewrite !G3, !(proj2 (String.eqb_neq _ _)) by apply sql_name_info.
  rewrite !G2, !String.eqb_refl, (proj2 (String.eqb_neq _ _)) by apply up_down_ne. rewrite G1, String.eqb_refl. auto.
Qed.
Lemma remove_sql_runs m bn fs i f g : fs_ok fs -> has_dir fs m -> read_info m fs = Ok i ->
  get_file m (sql_name bn "up") fs = Some f -> get_file m (sql_name bn "down") fs = Some g ->
  exists fs' tr, fs_remove_sql m bn fs = (Ok tt, fs', tr).
Proof.
  intros OK D I F G. unfold fs_remove_sql, fbind. rewrite (delete_file_runs _ _ _ _ D F).
  destruct (del_file_get m (sql_name bn "up") fs OK D) as [D1 G1].
  assert (OK1 : fs_ok (del_file m (sql_name bn "up") fs)) by (now apply (del_file_frame m)).
  rewrite (delete_file_runs m (sql_name bn "down") _ g D1).
  2: { rewrite G1, (proj2 (String.eqb_neq _ _)); [exact G|]. intros X. symmetry in X. now apply up_down_ne in X. }
  destruct (del_file_get m (sql_name bn "down") _ OK1 D1) as [D2 G2].
  assert (OK2 : fs_ok (del_file m (sql_name bn "down") (del_file m (sql_name bn "up") fs))) by (now apply (del_file_frame m)).
  unfold fread. assert (I2 : read_info m (del_file m (sql_name bn "down") (del_file m (sql_name bn "up") fs)) = Ok i).
  { rewrite <- I. apply read_info_same. rewrite G2, G1.
    rewrite !(proj2 (String.eqb_neq _ _)); [reflexivity| |]; intros X; symmetry in X; now apply sql_name_info in X. }
  rewrite I2.
  match goal with |- context [write_info m ?j ?x] => destruct (write_runs m "info.json" (FInfo j) _ x OK2 eq_refl) as (fs3 & t3 & E3 & _) end.
  unfold write_info. rewrite E3. eexists _, _; reflexivity.
Qed.
Lemma one_safe_remove m bn fs o fs' tr : fs_ok fs -> has_dir fs m -> fs_remove_sql m bn fs = (o, fs', tr) ->
  script_only [m] bn fs fs'.
Proof.
  intros OK D E. assert (DD : forall x, In x [m] -> has_dir fs x) by (intros x [<-|[]]; exact D).
  refine (proj1 (safe_remove_sql [m] bn fs DD m _ fs o fs' tr _ E)); [now left|apply so_refl, OK].
Qed.
Lemma remove_effect bn : forall r fs u fs' tr, fs_ok fs -> NoDup r -> (forall m, In m r -> has_dir fs m) ->
  remove_scripts bn r fs = (Ok u, fs', tr) ->
  forall m, In m r -> exists i, read_info m fs = Ok i /\ read_info m fs' = Ok (without_backend bn i) /\
    read_sql m bn "up" fs' = Ok None /\ read_sql m bn "down" fs' = Ok None.
Proof.
  induction r as [|m0 r IH]; intros fs u fs' tr OK ND HR H m Hm; [destruct Hm|].
  cbn [remove_scripts] in H. apply fbind_ok in H as (v & fs6 & t11 & t12 & E6 & H & _).
  pose proof (HR m0 (or_introl eq_refl)) as D0.
  pose proof (one_safe_remove _ _ _ _ _ _ OK D0 E6) as SO1. pose proof (so_ok _ _ _ _ SO1) as OK6.
  inversion_clear ND as [|? ? N0 ND'].
  assert (DD : forall x, In x r -> has_dir fs6 x) by (intros x Hx; apply (so_dirs _ _ _ _ SO1), HR; cbn; auto).
  pose proof (proj1 (safe_remove_scripts r bn fs6 DD r (incl_refl r) _ _ _ _ (so_refl r bn fs6 OK6) H)) as SO2.
  destruct Hm as [<-|Hm].
  - destruct (remove_sql_ok _ _ _ _ _ _ OK D0 E6) as (i & I & I' & U & W).
    assert (G : forall k, get_file m0 k fs' = get_file m0 k fs6).
    { intros k. unfold get_file. now rewrite (so_out _ _ _ _ SO2 m0 N0). }
    exists i. split; [exact I|]. split; [rewrite <- I'; apply read_info_same, G|]. unfold read_sql in *. rewrite !G. auto.
  - destruct (IH _ _ _ _ OK6 ND' DD H m Hm) as (i & I & R). exists i. split; [|exact R].
    rewrite <- I. apply read_info_same. unfold get_file.
    rewrite (so_out _ _ _ _ SO1 m); [reflexivity|]. intros [->|[]]. now apply N0.
Qed.
Lemma remove_runs bn : forall r fs, fs_ok fs -> NoDup r ->
  (forall m, In m r -> has_dir fs m /\ (exists i, read_info m fs = Ok i) /\
     (exists f, get_file m (sql_name bn "up") fs = Some f) /\ (exists f, get_file m (sql_name bn "down") fs = Some f)) ->
  exists fs' tr, remove_scripts bn r fs = (Ok tt, fs', tr).
Proof.
  induction r as [|m0 r IH]; intros fs OK ND HR; [eexists _, _; reflexivity|].
  cbn [remove_scripts]. destruct (HR m0 (or_introl eq_refl)) as (D0 & (i & I0) & (f & F) & (g & G)).
  destruct (remove_sql_runs m0 bn fs i f g OK D0 I0 F G) as (fs6 & t6 & E6).
  pose proof (one_safe_remove _ _ _ _ _ _ OK D0 E6) as SO1. pose proof (so_ok _ _ _ _ SO1) as OK6.
  inversion_clear ND as [|? ? N0 ND'].
  destruct (IH fs6 OK6 ND') as (fs' & tr & E7).
  - intros x Hx. assert (Nx : ~ In x [m0]) by (intros [->|[]]; contradiction).
    assert (GG : forall k, get_file x k fs6 = get_file x k fs) by (intros k; unfold get_file; now rewrite (so_out _ _ _ _ SO1 x Nx)).
    destruct (HR x (or_intror Hx)) as (A & (j & Ij) & B & C). split; [now apply (so_dirs _ _ _ _ SO1)|].
    split; [exists j; rewrite <- Ij; apply read_info_same, GG|]. now rewrite !GG.
  - unfold fbind. rewrite E6, E7. eexists _, _; reflexivity.
Qed.
