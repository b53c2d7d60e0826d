(** Property theorems C09-C16: the chain of migrations, applying and undoing it,
    creating migrations in memory and on disk, copying them. *)
From Verif Require Import Base SqlVal Adb AdbSpec AdbProofs ResolveSpec ResolveProofs Props_Schema
  Chain ChainSpec ChainProofs Store StoreSpec StoreProofs FsStore FsSpec FsProofs.
From Coq Require Import Permutation.

(** ** Example store: a <- b <- c, with a stray migration x based on a *)
Definition ex_mig (n : string) (from : option string) : MemMigration :=
  {| mm_name := n; mm_db := adb_new; mm_from := from;
     mm_up := [("toy", n)]; mm_down := [("toy", ("-" ++ n)%string)] |}.
Definition ex_store : MemStore :=
  {| ms_migs := [("a", ex_mig "a" None); ("b", ex_mig "b" (Some "a")); ("c", ex_mig "c" (Some "b"));
                 ("x", ex_mig "x" (Some "a"))];
     ms_current := mem_migration "current"; ms_latest := Some "c" |}.
Definition ex_chain : list MemMigration := [ex_mig "a" None; ex_mig "b" (Some "a"); ex_mig "c" (Some "b")].
(** A database that remembers the scripts it ran; a script [-s] takes [s] back. *)
Definition ex_exec (sql : string) (d : DBS (list string)) : outcome (DBS (list string)) :=
  let mig := match dbs_mig d with None => Some [] | m => m end in
  if starts_with sql "-"
  then match dbs_rest d with
       | s :: r => if String.eqb ("-" ++ s) sql then Ok {| dbs_rest := r; dbs_mig := mig |} else Err (DbError 3)
       | [] => Err (DbError 3)
       end
  else Ok {| dbs_rest := sql :: dbs_rest d; dbs_mig := mig |}.
Definition ex_db0 : DBS (list string) := {| dbs_rest := []; dbs_mig := None |}.
Example ex_store_wf : mem_wf ex_store.
Proof.
  split; [repeat constructor|]. split.
  - intros n m H. cbn in H. repeat (destruct H as [[= <- <-]|H]; [reflexivity|]). destruct H.
  - intros n [= <-]. eexists. cbn. eauto.
Qed.
Example ex_store_coherent : coherent (mem_coll ex_store).
Proof. apply mem_coherent, ex_store_wf. Qed.
Example ex_store_chain : chain (mem_coll ex_store) ex_chain.
Proof.
  unfold chain. cbn. change ex_chain with (([ex_mig "a" None] ++ [ex_mig "b" (Some "a")]) ++ [ex_mig "c" (Some "b")])%list.
  eapply ch_next; [exists "b"%string; split; reflexivity|]. eapply ch_next; [exists "a"%string; split; reflexivity|].
  constructor. reflexivity.
Qed.
Example ex_keeps : scripts_keep_records (mem_coll ex_store) ex_exec "toy" ex_chain.
Proof.
  intros m sql _ _ d d'. unfold ex_exec. destruct (starts_with sql "-").
  - destruct (dbs_rest d) as [|s r]; [discriminate|]. destruct (String.eqb _ _); [|discriminate].
    intros [= <-]. cbn. destruct (dbs_mig d); auto.
  - intros [= <-]. cbn. destruct (dbs_mig d); auto.
Qed.

(** ** C09 *)
Theorem C09_listing_is_chain : forall (M : Type) (c : Coll M) l, coherent c -> chain c l ->
  all_migrations c = Ok l /\ NoDup (names c l) /\ linked c l /\
  (forall f r, l = f :: r -> is_first c f) /\
  (forall m, cl_latest c = Some m -> exists a, l = a ++ [m]) /\ (cl_latest c = None -> l = []).
Proof.
  intros M c l CO CH. split; [exact (chain_all c CO l CH)|]. split; [exact (chain_NoDup c CO l CH)|].
  unfold chain in CH. destruct (cl_latest c) as [m|].
  - split; [exact (chain_to_links c m l CH)|]. split.
    + intros f r E. destruct (chain_to_head c m l CH) as (f' & r' & E' & F). congruence.
    + split; [|discriminate]. intros m' [= <-]. exact (chain_to_last c m l CH).
  - subst l. split; [intros [|? a] x y b H; discriminate|]. repeat split; discriminate.
Qed.
Print Assumptions C09_listing_is_chain.
Example C09_example : coherent (mem_coll ex_store) /\ chain (mem_coll ex_store) ex_chain /\
  all_migrations (mem_coll ex_store) = Ok ex_chain /\ length ex_chain = 3.
Proof. split; [apply ex_store_coherent|]. split; [apply ex_store_chain|]. split; reflexivity. Qed.

(** Whatever the store: a listing that is returned is linked and ends at the latest
    migration; it starts at a first one unless a predecessor is missing. *)
Theorem C09_listing_sound : forall (M : Type) (c : Coll M) l, coherent c -> all_migrations c = Ok l ->
  linked c l /\ NoDup (names c l) /\
  (forall m, cl_latest c = Some m -> exists a, l = a ++ [m]) /\ (cl_latest c = None -> l = []) /\
  (forall f r, l = f :: r -> is_first c f \/ exists n, cl_from c f = Ok (Some n) /\ cl_get c n = None).
Proof.
  intros M c l CO H. apply (all_migrations_ok c CO) in H. destruct (walk_listed c _ _ H) as (L & E & F).
  rewrite rev_involutive in L, F. split; [exact L|]. split.
  { apply (walk_NoDup c CO) in H; [|apply CO]. rewrite map_rev in H. apply NoDup_rev in H. now rewrite rev_involutive in H. }
  destruct (cl_latest c) as [m|].
  - destruct E as [r E]. split; [|split; [discriminate|exact F]]. intros m' [= <-]. exists (rev r).
    apply (f_equal (@rev M)) in E. now rewrite rev_involutive in E.
  - split; [discriminate|]. split; [|exact F]. intros _. apply (f_equal (@rev M)) in E. now rewrite rev_involutive in E.
Qed.
Print Assumptions C09_listing_sound.

(** The migrations after a given one are the rest of the chain; a migration outside
    the chain is an error. *)
Theorem C09_since_is_rest : forall (M : Type) (c : Coll M) l, coherent c -> chain c l ->
  (forall a s b, l = a ++ s :: b -> migrations_since c s = Ok b) /\
  (forall s, ~ In (cl_name c s) (names c l) -> migrations_since c s = Err (MigrationError "Migration not in chain")).
Proof.
  intros M c l CO CH. split.
  - intros a s b. exact (since_latest c CO l a s b CH).
  - intros s. exact (since_absent c CO l s CH).
Qed.
Print Assumptions C09_since_is_rest.

(** Finding: when a predecessor is missing the listing silently starts in the middle. *)
Theorem C09_missing_predecessor_refuted : exists c : Coll MemMigration, coherent c /\
  exists l, all_migrations c = Ok l /\ ~ chain c l /\ exists f r, l = f :: r /\ ~ is_first c f.
Proof.
  set (s := {| ms_migs := [("b", ex_mig "b" (Some "a"))]; ms_current := mem_migration "current"; ms_latest := Some "b" |}).
  exists (mem_coll s). split.
  { apply mem_coherent. split; [repeat constructor|]. split.
    - intros n m [[= <- <-]|[]]. reflexivity.
    - intros n [= <-]. eexists. cbn. eauto. }
  exists [ex_mig "b" (Some "a")]. split; [reflexivity|]. split.
  - intros CH. unfold chain in CH. cbn in CH. inversion CH as [m F|m p l B C]; subst.
    + discriminate F.
    + destruct B as (n & E1 & E2). cbn in E1. injection E1 as <-. discriminate E2.
  - eexists _, _. split; [reflexivity|]. discriminate.
Qed.
Print Assumptions C09_missing_predecessor_refuted.

(** Finding: creating a migration under a name already used makes the chain cyclic,
    and listing it never ends. *)
Definition one_table (n : string) : ADB :=
  {| a_tables := [(n, {| t_name := n; t_cols := [pkcol "id" TInt] |})]; a_types := [] |}.
Theorem C09_name_reuse_diverges_refuted : exists steps s, mem_create_all [] mem_new steps = Ok s /\
  coherent (mem_coll s) /\ forall fuel, all_migrations_fuel (mem_coll s) fuel = None.
Proof.
  set (steps := [("a", one_table "t"); ("b", one_table "u"); ("a", one_table "v")]).
  destruct (mem_create_all [] mem_new steps) as [s| |] eqn:E; [|vm_compute in E; discriminate..].
  exists steps, s. split; [exact E|].
  assert (CO : coherent (mem_coll s)).
  { apply mem_coherent. vm_compute in E. injection E as <-. split; [repeat constructor|]. split.
    - intros n m H. cbn in H. repeat (destruct H as [[= <- <-]|H]; [reflexivity|]). destruct H.
    - intros n [= <-]. eexists. cbn. eauto. }
  split; [exact CO|]. apply (walk_diverges (mem_coll s) CO). vm_compute in E. injection E as <-. vm_compute. reflexivity.
Qed.
Print Assumptions C09_name_reuse_diverges_refuted.

(** ** C10 *)
Theorem C10_applied_unapplied_partition : forall (M S : Type) (c : Coll M) l p q (d : DBS S), coherent c -> chain c l ->
  l = p ++ q -> records c d p ->
  (exists s', last_applied no_fault c (conn_on d) = (Val (last (map Some p) None), s') /\ cn_db s' = d) /\
  (exists s', unapplied no_fault c (conn_on d) = (Val q, s') /\ cn_db s' = d).
Proof.
  intros M S c l p q d CO CH E R. pose proof (chain_NoDup c CO l CH) as ND. split.
  - destruct (last_applied_runs c l (conn_on d) CO CH) as (o & s' & EL & D & LR). exists s'.
    split; [|exact D]. rewrite EL. do 2 f_equal. subst l. eapply last_recorded_fun; [exact ND|exact LR|].
    apply last_recorded_prefix; [exact ND|]. intros n. cbn. unfold records in R. unfold rows.
    destruct (dbs_mig d); subst; reflexivity.
  - destruct (unapplied_runs c l (conn_on d) CO CH) as (q' & s' & EL & D & P). exists s'. split; [|exact D].
    rewrite EL. do 2 f_equal. eapply pending_fun; [exact ND|exact P|]. apply (records_pending c l d p q); auto.
Qed.
Print Assumptions C10_applied_unapplied_partition.
(** With failing calls: the database is only read, and an answer that is given is the
    right one. *)
Theorem C10_reading_is_safe : forall (M S : Type) (c : Coll M) plan l p q (d : DBS S), coherent c -> chain c l ->
  l = p ++ q -> records c d p ->
  (forall r s', last_applied plan c (conn_on d) = (r, s') -> cn_db s' = d /\ (forall o, r = Val o -> o = last (map Some p) None)) /\
  (forall r s', unapplied plan c (conn_on d) = (r, s') -> cn_db s' = d /\ (forall u, r = Val u -> u = q)).
Proof.
  intros M S c plan l p q d CO CH E R. pose proof (chain_NoDup c CO l CH) as ND. split; intros r s' H.
  - destruct (last_applied_effect c plan l _ r s' CO CH H) as (D & LR). split; [exact D|]. intros o ->.
    subst l. eapply last_recorded_fun; [exact ND|exact LR|].
    apply last_recorded_prefix; [exact ND|]. intros n. cbn. unfold records in R. unfold rows.
    destruct (dbs_mig d); subst; reflexivity.
  - destruct (unapplied_effect c plan l _ r s' CO CH H) as (D & P). split; [exact D|]. intros u ->.
    eapply pending_fun; [exact ND|exact P|]. apply (records_pending c l d p q); auto.
Qed.
Print Assumptions C10_reading_is_safe.
(** Whatever rows the bookkeeping table contains, the last applied migration is the
    last one of the chain found in it. *)
Theorem C10_last_applied_any_rows : forall (M S : Type) (c : Coll M) l (d : DBS S) rows, coherent c -> chain c l ->
  dbs_mig d = Some rows ->
  exists o s', last_applied no_fault c (conn_on d) = (Val o, s') /\ cn_db s' = d /\ last_recorded c rows l o.
Proof.
  intros M S c l d rows CO CH E. destruct (last_applied_runs c l (conn_on d) CO CH) as (o & s' & EL & D & LR).
  exists o, s'. cbn in LR. unfold ChainProofs.rows in LR. rewrite E in LR. auto.
Qed.
Print Assumptions C10_last_applied_any_rows.
Example C10_example : records (mem_coll ex_store) {| dbs_rest := ["a"]; dbs_mig := Some ["a"] |} [ex_mig "a" None] /\
  fst (unapplied no_fault (mem_coll ex_store) (conn_on {| dbs_rest := ["a"]; dbs_mig := Some ["a"] |}))
  = Val [ex_mig "b" (Some "a"); ex_mig "c" (Some "b")].
Proof. split; reflexivity. Qed.

(** ** C11 *)
Theorem C11_migrate_atomic : forall (M S : Type) (c : Coll M) (exec : string -> DBS S -> outcome (DBS S)) bk plan l p q d r s',
  coherent c -> chain c l -> scripts_keep_records c exec bk l -> l = p ++ q -> records c d p ->
  migrate exec bk plan c (conn_on d) = (r, s') ->
  exists k, k <= length q /\ seq (applies c exec bk) (firstn k q) d (cn_db s') /\
    records c (cn_db s') (p ++ firstn k q) /\ (r = Val tt -> k = length q).
Proof.
  intros M S c exec bk plan l p q d r s' CO CH K E R H.
  destruct (migrate_effect c exec bk plan l (conn_on d) r s' q CO CH (records_pending c l d p q CO CH E R) H) as (k & Q & F & L).
  exists k. split; [exact L|]. split; [exact Q|]. split; [|exact F]. eapply seq_records; [|exact R|exact Q].
  intros x sql Hx. apply K. subst l. apply in_or_app. right. eapply In_firstn. exact Hx.
Qed.
Print Assumptions C11_migrate_atomic.
(** Interrupted any number of times, in any way, then run once without a failure:
    the result is that of one uninterrupted run. *)
Theorem C11_migrate_resumes : forall (M S : Type) (c : Coll M) (exec : string -> DBS S -> outcome (DBS S)) bk plans l p q d d',
  coherent c -> chain c l -> scripts_keep_records c exec bk l -> l = p ++ q -> records c d p ->
  seq (applies c exec bk) q d d' ->
  exists s', migrate exec bk no_fault c (conn_on (migrate_runs_with c exec bk plans d)) = (Val tt, s') /\ cn_db s' = d'.
Proof. intros M S c exec bk plans l p q d d'. exact (migrate_resumes c exec bk l plans p q d d'). Qed.
Print Assumptions C11_migrate_resumes.
(** With everything applied, migrating changes nothing, and succeeds unless a call
    fails. *)
Theorem C11_migrate_again_does_nothing : forall (M S : Type) (c : Coll M) (exec : string -> DBS S -> outcome (DBS S)) bk l d,
  coherent c -> chain c l -> records c d l ->
  (forall plan r s', migrate exec bk plan c (conn_on d) = (r, s') -> cn_db s' = d) /\
  (exists s', migrate exec bk no_fault c (conn_on d) = (Val tt, s')).
Proof.
  intros M S c exec bk l d CO CH R. split.
  - intros plan r s'. exact (migrate_done c exec bk plan l d s' r CO CH R).
  - destruct (migrate_done_ok c exec bk l d CO CH R) as (s' & E & _). eauto.
Qed.
Print Assumptions C11_migrate_again_does_nothing.
(** Every combination of the ways a call can go wrong is covered: here the third
    migration's script fails after two were applied (calls 0-1 read, 2-5 and 6-9 apply a
    and b, call 11 is c's script), then the run is repeated. *)
Definition ex_plan (n : nat) : fault := if Nat.eqb n 11 then StopsAfter else NoFault.
Example C11_example :
  let d1 := migrate_runs_with (mem_coll ex_store) ex_exec "toy" [ex_plan] ex_db0 in
  d1 = {| dbs_rest := ["b"; "a"]; dbs_mig := Some ["a"; "b"] |} /\
  cn_db (snd (migrate ex_exec "toy" no_fault (mem_coll ex_store) (conn_on d1)))
  = {| dbs_rest := ["c"; "b"; "a"]; dbs_mig := Some ["a"; "b"; "c"] |}.
Proof. split; vm_compute; reflexivity. Qed.
Example C11_example_hyp : records (mem_coll ex_store) ex_db0 [] /\
  seq (applies (mem_coll ex_store) ex_exec "toy") ex_chain ex_db0
    {| dbs_rest := ["c"; "b"; "a"]; dbs_mig := Some ["a"; "b"; "c"] |}.
Proof.
  split; [reflexivity|].
  eapply seq_cons; [eexists _, _; split; [reflexivity|]; split; [reflexivity|]; eexists; split; [reflexivity|]; split; [|reflexivity]; cbn; intuition discriminate|].
  eapply seq_cons; [eexists _, _; split; [reflexivity|]; split; [reflexivity|]; eexists; split; [reflexivity|]; split; [|reflexivity]; cbn; intuition discriminate|].
  eapply seq_cons; [eexists _, _; split; [reflexivity|]; split; [reflexivity|]; eexists; split; [reflexivity|]; split; [|reflexivity]; cbn; intuition discriminate|].
  constructor.
Qed.

(** ** C12 *)
Theorem C12_unmigrate_reverse_prefix : forall (M S : Type) (c : Coll M) (exec : string -> DBS S -> outcome (DBS S)) bk plan l p q d r s',
  coherent c -> chain c l -> scripts_keep_records c exec bk l -> l = p ++ q -> records c d p ->
  unmigrate exec bk plan c (conn_on d) = (r, s') ->
  exists k, k <= length p /\ seq (downgrades c exec bk) (firstn k (rev p)) d (cn_db s') /\
    records c (cn_db s') (firstn (length p - k) p) /\ (r = Val tt -> k = length p).
Proof.
  intros M S c exec bk plan l p q d r s' CO CH K E R H.
  destruct (unmigrate_effect c exec bk plan l p q (conn_on d) r s' CO CH E R H) as (k & L & Q & F).
  exists k. split; [exact L|]. split; [now apply seq_downs|]. split; [|exact F].
  eapply seq_downs_records; eauto; [|eapply keep_incl; [|exact K]; intros x Hx; rewrite E; apply in_or_app; auto].
  pose proof (chain_NoDup c CO l CH) as ND. subst l.
  unfold names in *. rewrite map_app in ND. now apply NoDup_app_iff in ND.
Qed.
Print Assumptions C12_unmigrate_reverse_prefix.
(** If downgrades undo what applying did, what is left after a failure is exactly the
    database of a shorter applied prefix, and after success the original data. *)
Theorem C12_unmigrate_restores : forall (M S : Type) (c : Coll M) (exec : string -> DBS S -> outcome (DBS S)) bk plan l f p q d0 d r s',
  coherent c -> chain c l -> scripts_keep_records c exec bk l -> l = (f :: p) ++ q -> records c d (f :: p) ->
  undoes_first c exec bk f -> (forall m, In m p -> undoes c exec bk m) ->
  seq (applies c exec bk) (f :: p) d0 d ->
  unmigrate exec bk plan c (conn_on d) = (r, s') ->
  (exists k, k <= length p /\ seq (applies c exec bk) (firstn (1 + k) (f :: p)) d0 (cn_db s') /\ r <> Val tt) \/
  (dbs_rest (cn_db s') = dbs_rest d0 /\ records c (cn_db s') []).
Proof.
  intros M S c exec bk plan l f p q d0 d r s' CO CH K E R UF UR A H.
  destruct (unmigrate_effect c exec bk plan l (f :: p) q (conn_on d) r s' CO CH E R H) as (k & L & Q & F).
  pose proof (chain_NoDup c CO l CH) as ND. subst l. unfold names in ND. rewrite map_app in ND. apply NoDup_app_iff in ND as [ND _].
  destruct (seq_downs_back_first c exec bk f p k d0 d _ UF UR A L Q) as [[L1 X]|[-> X]].
  - left. exists (length p - k). split; [lia|]. split.
    + replace (1 + (length p - k)) with (length (f :: p) - k) by (cbn [length]; lia). exact X.
    + intros ->. specialize (F eq_refl). cbn [length] in F. lia.
  - right. split; [exact X|].
    replace (@nil M) with (firstn (length (f :: p) - length (f :: p)) (f :: p)) by (now rewrite Nat.sub_diag).
    eapply seq_downs_records; eauto. eapply keep_incl; [|exact K]. intros x Hx. apply in_or_app. auto.
Qed.
Print Assumptions C12_unmigrate_restores.
(** Without failures everything applied is rolled back. *)
Theorem C12_unmigrate_completes : forall (M S : Type) (c : Coll M) (exec : string -> DBS S -> outcome (DBS S)) bk l p q d d',
  coherent c -> chain c l -> l = p ++ q -> records c d p -> seq (downgrades c exec bk) (rev p) d d' ->
  exists s', unmigrate exec bk no_fault c (conn_on d) = (Val tt, s') /\ cn_db s' = d'.
Proof.
  intros M S c exec bk l p q d d' CO CH E R Q. apply seq_downs in Q.
  exact (unmigrate_runs c exec bk l p q (conn_on d) d' CO CH E R Q).
Qed.
Print Assumptions C12_unmigrate_completes.
Example C12_example : cn_db (snd (unmigrate ex_exec "toy" no_fault (mem_coll ex_store)
    (conn_on {| dbs_rest := ["b"; "a"]; dbs_mig := Some ["a"; "b"] |}))) = {| dbs_rest := []; dbs_mig := Some [] |}.
Proof. reflexivity. Qed.
Example C12_example_undoes : undoes_first (mem_coll ex_store) ex_exec "toy" (ex_mig "a" None) /\
  undoes (mem_coll {| ms_migs := ms_migs ex_store; ms_current := ms_current ex_store; ms_latest := Some "b" |})
    (fun sql d => match dbs_mig d with Some _ => ex_exec sql d | None => Err (DbError 1) end) "toy" (ex_mig "b" (Some "a")).
Proof.
  split.
  - intros a b b' (sql & d1 & E1 & E2 & rows & E3 & N & ->) (sql' & d1' & F1 & F2 & rows' & F3 & ->).
    cbn in E1, F1. injection E1 as <-. injection F1 as <-. cbn in E2. injection E2 as <-. cbn in F2. injection F2 as <-. reflexivity.
  - intros a b b' (sql & d1 & E1 & E2 & rows & E3 & N & ->) (sql' & d1' & F1 & F2 & rows' & F3 & ->).
    cbn in E1, F1. injection E1 as <-. injection F1 as <-. destruct a as [ra [ma|]]; cbn in *; [|discriminate].
    injection E2 as <-. cbn in E3. injection E3 as <-. injection F2 as <-. cbn in *. injection F3 as <-. f_equal. f_equal.
    rewrite remove_app. cbn [remove]. destruct (string_dec "b" "b") as [_|X]; [|contradiction]. rewrite app_nil_r.
    now apply notin_remove.
Qed.
(** Finding: an unreadable description of a migration ends unmigrate early, and it
    still reports success. *)
Theorem C12_unreadable_info_refuted : exists (fs : FS) (d : DBS (list string)) s',
  fs_ok fs /\ fs_latest fs = Some "b"%string /\ dbs_mig d = Some ["a"; "b"] /\
  unmigrate ex_exec "toy" no_fault (fs_coll fs) (conn_on d) = (Val tt, s') /\
  dbs_mig (cn_db s') = Some ["a"].
Proof.
  exists {| fs_dirs := [("a", [("info.json", FInfo info_new); ("toy_down.sql", FSql "-a")]);
                        ("b", [("info.json", FTorn ""); ("toy_down.sql", FSql "-b")])];
            fs_state := Some (FState (Some "b")); fs_gitignore := true |}, {| dbs_rest := ["b"; "a"]; dbs_mig := Some ["a"; "b"] |}.
  eexists. split.
  { split; [repeat constructor|]. intros d dir H. apply mget_In in H. cbn in H.
    repeat (destruct H as [[= <- <-]|H]; [repeat constructor|]). destruct H. }
  split; [reflexivity|]. split; [reflexivity|]. split; [vm_compute; reflexivity|]. reflexivity.
Qed.
Print Assumptions C12_unreadable_info_refuted.

(** ** C13 *)
(** A toy backend whose script names the operations. *)
Definition op_word (op : Operation) : string :=
  match op with
  | AddTable t => "add " ++ t_name t
  | AddTableConstraints t => "constrain " ++ t_name t
  | AddTableIfNotExists t => "ensure " ++ t_name t
  | RemoveTable n => "drop " ++ n
  | RemoveTableConstraints t => "unconstrain " ++ t_name t
  | AddColumn n c => "addcol " ++ c_name c
  | RemoveColumn n c => "dropcol " ++ c
  | ChangeColumn n c _ => "change " ++ c_name c
  end%string.
Definition toy : Backend := {| b_name := "toy"; b_sql := fun _ ops => Ok (join "; " (map op_word ops) ++ ";")%string |}.

Theorem C13_creation : forall s bs name to from_db r s', mem_wf s -> from_db_of (mem_latest s) from_db -> wf_schema from_db ->
  wf_schema to -> settled to -> NoDup (map b_name bs) ->
  mem_create_to s bs name (mem_latest s) to = Ok (r, s') ->
  if r then
    ~ same_schema from_db to /\
    exists m, mem_latest s' = Some m /\ mem_get s' name = Some m /\ mm_name m = name /\
      mm_from m = option_map mm_name (mem_latest s) /\
      mm_read_db m = Ok {| a_tables := a_tables to; a_types := [] |} /\
      (forall n, n <> name -> mem_get s' n = mem_get s n) /\
      (forall b, In b bs -> exists up down, scripts_of bs (option_map mm_name (mem_latest s)) from_db to b up down /\
         mget (b_name b) (mm_up m) = Some up /\ mget (b_name b) (mm_down m) = Some down) /\
      (forall n, ~ In n (map b_name bs) -> mget n (mm_up m) = None /\ mget n (mm_down m) = None)
  else same_schema from_db to /\ s' = s.
Proof.
  intros s bs name to from_db r s' W Hf Wf Wt St ND H. destruct r.
  - destruct (mem_created s bs name _ to s' from_db Hf Wf Wt St ND H) as (N & m & -> & En & Ef & Ed & Hs & Ho).
    split; [exact N|]. exists m. split; [now apply mem_add_latest|]. split; [rewrite mem_add_get by exact W; now rewrite En, String.eqb_refl|].
    split; [exact En|]. split; [exact Ef|]. split; [exact Ed|]. split; [|split; [exact Hs|exact Ho]].
    intros n Nn. rewrite mem_add_get by exact W. rewrite En. now rewrite (proj2 (String.eqb_neq n name) Nn).
  - destruct (mem_not_created s bs name _ to s' from_db Hf Wf Wt H) as [-> SS]. auto.
Qed.
Print Assumptions C13_creation.
(** The bookkeeping table that the first migration creates. *)
Theorem C13_bookkeeping_table : exists c, migrations_table = {| t_name := "butane_migrations"; t_cols := [c] |} /\
  c_name c = "name"%string /\ c_pk c = true /\ c_nullable c = false /\ c_auto c = false /\ type_denotes (c_type c) = inl (TyId TText).
Proof. eexists. split; [reflexivity|]. repeat split. Qed.
Print Assumptions C13_bookkeeping_table.

Theorem C13_history : forall bs steps s, NoDup (map b_name bs) -> NoDup (map fst steps) ->
  (forall n to, In (n, to) steps -> wf_schema to /\ settled to) ->
  mem_create_all bs mem_new steps = Ok s ->
  exists ms, history adb_new steps ms /\ chain (mem_coll s) ms /\ all_migrations (mem_coll s) = Ok ms.
Proof.
  intros bs steps s NDb ND HS H.
  destruct (fun W C SL Wd Fr => mem_history bs steps NDb mem_new s [] adb_new W C SL Wd ND Fr HS H) as (ms & Hi & C & W & _).
  - split; [constructor|]. split; [intros n m []|discriminate].
  - reflexivity.
  - reflexivity.
  - apply empty_wf.
  - reflexivity.
  - exists ms. split; [exact Hi|]. split; [exact C|]. exact (chain_all _ (mem_coherent s W) ms C).
Qed.
Print Assumptions C13_history.
(** From any store, whatever else it contains, the existing chain is extended. *)
Theorem C13_history_extends : forall bs steps s s' l d, NoDup (map b_name bs) ->
  mem_wf s -> chain (mem_coll s) l -> schema_of_latest s d -> wf_schema d ->
  NoDup (map fst steps) -> (forall n, In n (map fst steps) -> mem_get s n = None) ->
  (forall n to, In (n, to) steps -> wf_schema to /\ settled to) ->
  mem_create_all bs s steps = Ok s' ->
  exists ms, history d steps ms /\ chain (mem_coll s') (l ++ ms) /\
    forall n, ~ In n (map fst steps) -> mem_get s' n = mem_get s n.
Proof.
  intros bs steps s s' l d NDb W C SL Wd ND Fr HS H.
  destruct (mem_history bs steps NDb s s' l d W C SL Wd ND Fr HS H) as (ms & A & B & _ & D). eauto.
Qed.
Print Assumptions C13_history_extends.
(** Creation cannot fail when the backends can write every script. *)
Theorem C13_creation_total : forall s bs name from to from_db,
  from_db_of from from_db -> wf_schema from_db -> wf_schema to -> settled to ->
  (forall b d ops, In b bs -> exists sql, b_sql b d ops = Ok sql) ->
  exists r s', mem_create_to s bs name from to = Ok (r, s').
Proof. exact mem_create_succeeds. Qed.
Print Assumptions C13_creation_total.
(** A migration based on another one than the latest does not move the latest. *)
Theorem C13_branch_keeps_latest : forall s bs name from l to from_db r s', mem_wf s ->
  mem_latest s = Some l -> from <> l -> mem_get s (mm_name from) = Some from -> mem_get s name = None ->
  from_db_of (Some from) from_db -> wf_schema from_db -> wf_schema to -> settled to -> NoDup (map b_name bs) ->
  mem_create_to s bs name (Some from) to = Ok (r, s') -> mem_latest s' = Some l.
Proof.
  intros s bs name from l to from_db r s' W El Nf Gf Fr Hf Wf Wt St ND H.
  assert (Gl : mem_get s (mm_name l) = Some l).
  { pose proof (mem_latest_name s l W El) as E. unfold mem_latest in El. now rewrite E in El. }
  destruct r.
  - destruct (mem_created s bs name _ to s' from_db Hf Wf Wt St ND H) as (N & m & -> & En & Ef & _).
    apply mem_add_other; [exact W|exact El| |congruence]. rewrite Ef. cbn. intros [= E]. apply Nf. rewrite E in Gf. congruence.
  - destruct (mem_not_created s bs name _ to s' from_db Hf Wf Wt H) as [-> _]. exact El.
Qed.
Print Assumptions C13_branch_keeps_latest.

(** The same on disk. *)
Theorem C13_disk_creation : forall ls bs name to fs d l fs' tr, fs_ok fs -> listing ls ->
  fs_get fs name = None -> get_state fs = Ok (fs_latest fs) -> chain (fs_coll fs) l ->
  from_schema fs (fs_latest fs) d -> wf_schema to -> settled to -> NoDup (map b_name bs) ->
  fs_create_to ls bs name (fs_latest fs) to fs = (Ok true, fs', tr) ->
  ~ same_schema d to /\ same_outside name fs fs' /\ fs_latest fs' = Some name /\ get_state fs' = Ok (fs_latest fs') /\
  chain (fs_coll fs') (l ++ [name]) /\ (exists d', fs_schema fs' name d' /\ same_schema d' to) /\
  omap in_backends (read_info name fs') = Ok (map b_name bs) /\
  (forall b, In b bs -> exists up down, scripts_of bs (fs_latest fs) d to b up down /\
     read_sql name (b_name b) "up" fs' = Ok (Some (with_newline up)) /\
     read_sql name (b_name b) "down" fs' = Ok (Some (with_newline down))).
Proof.
  intros ls bs name to fs d l fs' tr OK PL Fr GS CH S Wt St ND H.
  assert (NH : ~ has_dir fs name) by (intros [dir D]; unfold fs_get in Fr; now rewrite D in Fr).
  destruct (fs_created ls bs name to fs d l fs' tr OK PL NH GS CH S Wt St ND H)
    as (N & OK' & SO & GS' & EL & CH' & (d' & SS & Sd' & _) & B & Q).
  repeat (split; [assumption|]). split; [|split; assumption]. exists d'. split; [now apply stored_schema|exact SS].
Qed.
Print Assumptions C13_disk_creation.

Definition ls_id : list string -> list string := fun l => l.
Definition fs_empty : FS := {| fs_dirs := []; fs_state := None; fs_gitignore := false |}.
Lemma ls_rev : listing (@rev string).
Proof. intros l. apply Permutation_sym, Permutation_rev. Qed.
Definition ex_steps : list (string * ADB) := [("m1", ex_old); ("m2", ex_old); ("m3", ex_new); ("m4", one_table "tag")].
Example ex_steps_ok : forall n to, In (n, to) ex_steps -> wf_schema to /\ settled to.
Proof.
  assert (S : forall d, (forall n t, In (n, t) (a_tables d) ->
      forallb (fun c => match c_type c with Deferred _ => false | _ => true end &&
                        match c_ref c with Some (RefDeferred _) => false | _ => true end) (t_cols t) = true /\
      existsb c_pk (t_cols t) = true /\ exists a b p, t_cols t = a ++ p :: b /\ c_pk p = true /\ (forall x, In x a -> c_pk x = false)) -> settled d).
  { intros d H n t Ht. destruct (H n t Ht) as (A & B & a & b & p & E & P & F). split.
    - intros c Hc. rewrite forallb_forall in A. apply A in Hc. apply andb_true_iff in Hc as [H1 H2]. split.
      + destruct (c_type c); [eexists; reflexivity|eexists; reflexivity|discriminate].
      + destruct (c_ref c) as [[l|k]|]; [eauto|discriminate|auto].
    - left. exists p. exists a, b. auto. }
  assert (W1 : wf_schema (one_table "tag")) by wf_tac.
  assert (St : forall d, In d [ex_old; ex_new; one_table "tag"] -> settled d).
  { intros d Hd. apply S. cbn in Hd.
    repeat (destruct Hd as [<-|Hd]); [..|destruct Hd];
      intros n t Ht; cbn in Ht; repeat (destruct Ht as [[= <- <-]|Ht]); try destruct Ht;
      (split; [reflexivity|]; split; [reflexivity|]).
    - exists [], [col "name" TText], (pkcol "id" TBigInt). repeat split. intros x [].
    - exists [], [col "title" TText; col "likes" TInt], (pkcol "id" TInt). repeat split. intros x [].
    - eexists [col "body" TText], _, (pkcol "id" TInt). split; [reflexivity|]. split; [reflexivity|]. intros x [<-|[]]. reflexivity.
    - eexists [], _, (pkcol "tag" TText). split; [reflexivity|]. split; [reflexivity|]. intros x [].
    - eexists [], _, (pkcol "id" TInt). split; [reflexivity|]. split; [reflexivity|]. intros x []. }
  intros n to H. cbn in H.
  repeat (destruct H as [[= <- <-]|H]; [split; [first [apply ex_old_wf|apply ex_new_wf|apply W1]|apply St; cbn; auto 6]|]). destruct H.
Qed.
Example C13_example : exists s, mem_create_all [toy] mem_new ex_steps = Ok s /\
  omap (map mm_name) (all_migrations (mem_coll s)) = Ok ["m1"; "m3"; "m4"] /\
  option_map (fun m => mget "toy"%string (mm_up m)) (mem_get s "m1") = Some (Some "add blog; add post; ensure butane_migrations;"%string).
Proof. eexists. split; [vm_compute; reflexivity|]. split; vm_compute; reflexivity. Qed.

(** ** C14 *)
Theorem C14_disk_history : forall ls bs steps fs fs' tr, listing ls -> NoDup (map b_name bs) -> fs_fresh fs ->
  NoDup (map fst steps) ->
  (forall n to, In (n, to) steps -> fs_get fs n = None /\ wf_schema to /\ settled to) ->
  fs_create_all ls bs steps fs = (Ok tt, fs', tr) ->
  exists made, made_of adb_new steps made /\ holds_migrations fs' made.
Proof.
  intros ls bs steps fs fs' tr PL NDb F ND HS H.
  exact (proj1 (fs_history_fresh ls bs steps fs (Ok tt) fs' tr PL NDb F ND HS H) eq_refl).
Qed.
Print Assumptions C14_disk_history.
(** The example creates three migrations; the last two keep tables unchanged, which
    are stored only by reference. *)
Definition ex_disk := fs_create_all (@rev string) [toy] ex_steps fs_empty.
Example C14_example : exists fs' tr, ex_disk = (Ok tt, fs', tr) /\ all_migrations (fs_coll fs') = Ok ["m1"; "m3"; "m4"] /\
  (forall n to, In (n, to) ex_steps -> fs_get fs_empty n = None).
Proof.
  destruct ex_disk as [[o fs'] tr] eqn:E. exists fs', tr.
  assert (X : fst (fst ex_disk) = Ok tt /\ all_migrations (fs_coll (snd (fst ex_disk))) = Ok ["m1"; "m3"; "m4"])
    by (split; vm_compute; reflexivity).
  rewrite E in X. cbn [fst snd] in X. destruct X as [-> X]. split; [reflexivity|]. split; [exact X|]. reflexivity.
Qed.
Example C14_example_shared : exists fs' tr, fs_create_all ls_id [toy]
    [("m1", ex_old); ("m2", {| a_tables := a_tables ex_old ++ a_tables (one_table "tag"); a_types := [] |});
     ("m3", {| a_tables := a_tables ex_old ++ a_tables (one_table "tug"); a_types := [] |})] fs_empty = (Ok tt, fs', tr) /\
  get_file "m3" "post.table" fs' = None /\
  omap in_bases (read_info "m3" fs') = Ok [("blog", "m1"); ("post", "m1")] /\
  omap (fun d => mkeys (a_tables d)) (fs_read_db (@rev string) "m3" fs') = Ok ["blog"; "post"; "tug"].
Proof. eexists _, _. split; [vm_compute; reflexivity|]. repeat split; vm_compute; reflexivity. Qed.

(** Finding: a directory that already exists under the new migration's name (for
    example left over from a creation that was interrupted) keeps its old files, and
    its stale tables become part of the new migration. *)
Definition ex_stale : FS :=
  {| fs_dirs := [("m1", [("old.table", FTable {| t_name := "old"; t_cols := [pkcol "id" TInt] |})])];
     fs_state := None; fs_gitignore := false |}.
Theorem C14_reused_directory_refuted : exists fs fs' tr to d, fs_fresh fs /\ wf_schema to /\ wf_schema d /\
  fs_create_to ls_id [toy] "m1" (fs_latest fs) to fs = (Ok true, fs', tr) /\
  fs_read_db ls_id "m1" fs' = Ok d /\ ~ same_schema d to.
Proof.
  exists ex_stale. eexists _, _.
  exists (one_table "new"), {| a_tables := a_tables (one_table "new") ++ a_tables (one_table "old"); a_types := [] |}.
  assert (W1 : wf_schema (one_table "new")) by wf_tac.
  match goal with |- _ /\ _ /\ wf_schema ?d /\ _ => assert (W2 : wf_schema d) by wf_tac end.
  split.
  { split; [|reflexivity]. split; [repeat constructor|]. intros d dir H. apply mget_In in H. cbn in H.
    destruct H as [[= <- <-]|[]]. repeat constructor. }
  split; [exact W1|]. split; [exact W2|]. split; [vm_compute; reflexivity|]. split; [vm_compute; reflexivity|].
  intros SS. apply C02_diff_empty_iff_same in SS; [|assumption..]. vm_compute in SS. discriminate.
Qed.
Print Assumptions C14_reused_directory_refuted.

(** ** C15 *)
(** Whatever happens while a migration with a fresh name is created, and wherever the
    process stops ([x] ranges over everything found on disk on the way): the old
    migrations are all there and unchanged, or the new one is complete, or the state
    file was being replaced. *)
Theorem C15_crash_during_creation : forall ls bs name to fs d l o fs' tr, fs_ok fs -> listing ls ->
  fs_get fs name = None -> get_state fs = Ok (fs_latest fs) -> chain (fs_coll fs) l ->
  from_schema fs (fs_latest fs) d -> wf_schema to -> settled to -> NoDup (map b_name bs) ->
  fs_create_to ls bs name (fs_latest fs) to fs = (o, fs', tr) ->
  forall x, In x (tr ++ [fs']) ->
    intact fs x l \/
    (torn_state x /\ same_outside name fs x) \/
    (chain (fs_coll x) (l ++ [name]) /\ same_outside name fs x /\
     exists d', fs_schema x name d' /\ same_schema d' to).
Proof.
  intros ls bs name to fs d l o fs' tr OK PL Fr GS CH S Wt St ND H x Hx.
  assert (NH : ~ has_dir fs name) by (intros [dir D]; unfold fs_get in Fr; now rewrite D in Fr).
  exact (fs_crash ls bs name to fs d l o fs' tr OK PL NH GS CH S Wt St ND H x Hx).
Qed.
Print Assumptions C15_crash_during_creation.
(** The same for a whole sequence of creations, from a fresh store. *)
Theorem C15_crash_in_history : forall ls bs steps fs u fs' tr, listing ls -> NoDup (map b_name bs) -> fs_fresh fs ->
  NoDup (map fst steps) ->
  (forall n to, In (n, to) steps -> fs_get fs n = None /\ wf_schema to /\ settled to) ->
  fs_create_all ls bs steps fs = (u, fs', tr) ->
  Forall (fun x => torn_state x \/ exists k made, made_of adb_new (firstn k steps) made /\ holds_migrations x made) tr.
Proof.
  intros ls bs steps fs u fs' tr PL NDb F ND HS H.
  exact (proj2 (fs_history_fresh ls bs steps fs u fs' tr PL NDb F ND HS H)).
Qed.
Print Assumptions C15_crash_in_history.
Example C15_example : exists fs' tr, ex_disk = (Ok tt, fs', tr) /\ 100 <= length tr.
Proof.
  destruct ex_disk as [[o fs'] tr] eqn:E. exists fs', tr.
  assert (X : fst (fst ex_disk) = Ok tt /\ Nat.leb 100 (length (snd ex_disk)) = true) by (split; vm_compute; reflexivity).
  rewrite E in X. cbn [fst snd] in X. destruct X as [-> X]. split; [reflexivity|]. now apply Nat.leb_le.
Qed.
(** Finding: the state file is truncated before it is rewritten; a process that stops
    in between loses the whole list of migrations. *)
Theorem C15_torn_state_refuted : exists fs' tr x, ex_disk = (Ok tt, fs', tr) /\ In x tr /\
  fs_get x "m1" = Some "m1"%string /\ all_migrations (fs_coll x) = Ok [] /\ fs_latest x = None.
Proof.
  destruct ex_disk as [[o fs'] tr] eqn:E. exists fs', tr.
  set (bad := fun x => match fs_state x with Some (FTorn _) => true | _ => false end &&
                       match fs_get x "m1" with Some _ => true | None => false end).
  assert (X : fst (fst ex_disk) = Ok tt /\ existsb bad (snd ex_disk) = true) by (split; vm_compute; reflexivity).
  rewrite E in X. cbn [fst snd] in X. destruct X as [-> X]. apply existsb_exists in X as (x & Hx & B). exists x.
  unfold bad in B. apply andb_true_iff in B as [B1 B2].
  assert (L : fs_latest x = None).
  { clear - B1. unfold fs_latest, get_state. destruct (fs_state x) as [[]|]; try discriminate; reflexivity. }
  split; [reflexivity|]. split; [exact Hx|]. split.
  - clear - B2. unfold fs_get in *. destruct (mget "m1"%string (fs_dirs x)); [reflexivity|discriminate].
  - split; [|exact L]. apply (chain_all _ (fs_coherent x)). unfold chain. cbn. now rewrite L.
Qed.
Print Assumptions C15_torn_state_refuted.

(** ** C16 *)
Theorem C16_copy_preserves : forall src name f d bs,
  mv_from src = Ok f -> mv_db src = Ok d -> mv_backends src = Ok bs -> NoDup bs ->
  (forall b, In b bs -> exists u w, mv_up src b = Ok u /\ mv_down src b = Ok w) ->
  resolution_result d -> settled d -> wf_schema d ->
  exists m, copy_migration src (mem_migration name) = Ok m /\
    mm_name m = name /\ mm_from m = f /\ mm_db m = d /\ mm_read_db m = Ok d /\
    (forall b u w, In b bs -> mv_up src b = Ok (Some u) -> mv_down src b = Ok (Some w) ->
       mget b (mm_up m) = Some u /\ mget b (mm_down m) = Some w) /\
    (forall b, ~ In b bs -> mget b (mm_up m) = None /\ mget b (mm_down m) = None).
Proof. exact copy_preserves. Qed.
Print Assumptions C16_copy_preserves.
(** What is read from disk or from memory meets the hypothesis on the schema. *)
Theorem C16_sources_are_results :
  (forall ls n fs d, fs_read_db ls n fs = Ok d -> resolution_result d) /\
  (forall m d, msorted (a_tables (mm_db m)) -> msorted (a_types (mm_db m)) -> mm_read_db m = Ok d -> resolution_result d).
Proof. exact (conj fs_result mem_result). Qed.
Print Assumptions C16_sources_are_results.
(** Embedding: every migration just created on disk, copied to memory. *)
Theorem C16_embed_from_disk : forall ls bs name to fs d l fs' tr, fs_ok fs -> listing ls ->
  fs_get fs name = None -> get_state fs = Ok (fs_latest fs) -> chain (fs_coll fs) l ->
  from_schema fs (fs_latest fs) d -> wf_schema to -> settled to -> NoDup (map b_name bs) ->
  fs_create_to ls bs name (fs_latest fs) to fs = (Ok true, fs', tr) ->
  exists m d', copy_migration (fs_view ls name fs') (mem_migration name) = Ok m /\
    mm_name m = name /\ mm_from m = fs_latest fs /\ mm_read_db m = Ok d' /\ same_schema d' to /\
    (forall b, In b bs -> exists up down, scripts_of bs (fs_latest fs) d to b up down /\
       mget (b_name b) (mm_up m) = Some (with_newline up) /\ mget (b_name b) (mm_down m) = Some (with_newline down)).
Proof.
  intros ls bs name to fs d l fs' tr OK PL Fr GS CH S Wt St ND H.
  assert (NH : ~ has_dir fs name) by (intros [dir D]; unfold fs_get in Fr; now rewrite D in Fr).
  exact (fs_embed ls bs name to fs d l fs' tr OK PL NH GS CH S Wt St ND H).
Qed.
Print Assumptions C16_embed_from_disk.
Example C16_example : exists fs' tr m, ex_disk = (Ok tt, fs', tr) /\
  copy_migration (fs_view ls_id "m3" fs') (mem_migration "m3") = Ok m /\ mm_from m = Some "m1"%string /\
  mkeys (a_tables (mm_db m)) = ["post"; "tag"]%string.
Proof.
  destruct ex_disk as [[o fs'] tr] eqn:E. exists fs', tr.
  assert (X : fst (fst ex_disk) = Ok tt /\ exists m, copy_migration (fs_view ls_id "m3" (snd (fst ex_disk))) (mem_migration "m3") = Ok m /\ mm_from m = Some "m1"%string /\
    mkeys (a_tables (mm_db m)) = ["post"; "tag"]%string).
  { split; [vm_compute; reflexivity|]. eexists. split; [vm_compute; reflexivity|]. split; reflexivity. }
  rewrite E in X. cbn [fst snd] in X. destruct X as (-> & m & A & B). exists m. auto.
Qed.
