(** Property theorems C43: what the CLI's migrate, rollback and list do. *)
From Verif Require Import Base Chain ChainSpec ChainProofs Store StoreSpec StoreProofs Props_Migrations Cli CliProofs.

(** ** C43 *)
(** [p] is applied and [a ++ m :: b] is pending.  Whatever fails on the way, migrating
    to [m] has applied a beginning of [a ++ [m]], and all of it when it reports success. *)
Theorem C43_migrate_to : forall (M S : Type) (c : Coll M) (exec : string -> DBS S -> outcome (DBS S)) bk plan l p a m b d r s',
  coherent c -> chain c l -> scripts_keep_records c exec bk l -> l = p ++ a ++ m :: b -> records c d p ->
  cli_migrate exec bk plan c (Some (cl_name c m)) (conn_on d) = (r, s') ->
  exists done, (exists rest, a ++ [m] = done ++ rest) /\ seq (applies c exec bk) done d (cn_db s') /\
    records c (cn_db s') (p ++ done) /\ (r = Val tt -> done = a ++ [m]).
Proof.
  intros M S c exec bk plan l p a m b d r s' CO CH K E R H. pose proof (chain_NoDup c CO l CH) as ND.
  destruct (migrate_to_effect c exec bk CO l CH plan _ (conn_on d) (a ++ m :: b) r s'
              (records_pending c l d p _ CO CH E R) H) as (k & L & Q & B & F).
  specialize (B _ a m b eq_refl eq_refl eq_refl).
  assert (EF : firstn k (a ++ m :: b) = firstn k (a ++ [m])).
  { change (a ++ m :: b) with (a ++ [m] ++ b). rewrite app_assoc, firstn_app.
    replace (k - length (a ++ [m])) with 0 by (rewrite app_length; cbn [length]; lia). cbn [firstn]. now rewrite app_nil_r. }
  rewrite EF in Q. exists (firstn k (a ++ [m])). split; [exists (skipn k (a ++ [m])); symmetry; apply firstn_skipn|].
  split; [exact Q|]. split; [eapply seq_records; [|exact R|exact Q]; eapply keep_incl; [|exact K]; intros x Hx; rewrite E, !in_app_iff; right;
    apply In_firstn in Hx; apply in_app_iff in Hx; destruct Hx as [Hx|[<-|[]]]; cbn; auto|].
  intros Er. apply firstn_all2. rewrite app_length. cbn [length].
  destruct (F Er) as [->|(n & a' & m' & b' & En & El & Em & Ek)]; [rewrite app_length; cbn [length]; lia|].
  injection En as <-. enough (a' = a) by (subst; lia).
  rewrite E in ND. unfold names in ND. rewrite map_app in ND. apply NoDup_app_iff in ND as (_ & ND & _).
  clear - ND El Em. revert a El ND. induction a' as [|x a' IH]; intros a El ND; destruct a as [|y a].
  - reflexivity.
  - injection El as -> El. cbn in ND. apply NoDup_cons_iff in ND as [N _]. destruct N. rewrite Em, map_app, in_app_iff. cbn. auto.
  - injection El as <- El. cbn in ND. apply NoDup_cons_iff in ND as [N _]. destruct N. rewrite El, <- Em, map_app, in_app_iff. cbn. auto.
  - injection El as -> El. f_equal. apply IH; [exact El|]. cbn in ND. now apply NoDup_cons_iff in ND as [_ ND].
Qed.
Print Assumptions C43_migrate_to.
(** Without failures it gets there and no further. *)
Theorem C43_migrate_to_completes : forall (M S : Type) (c : Coll M) (exec : string -> DBS S -> outcome (DBS S)) bk l p a m b d d',
  coherent c -> chain c l -> l = p ++ a ++ m :: b -> records c d p -> seq (applies c exec bk) (a ++ [m]) d d' ->
  exists s', cli_migrate exec bk no_fault c (Some (cl_name c m)) (conn_on d) = (Val tt, s') /\ cn_db s' = d'.
Proof.
  intros M S c exec bk l p a m b d d' CO CH E R Q. pose proof (chain_NoDup c CO l CH) as ND.
  apply (migrate_to_runs c exec bk CO l CH _ (conn_on d) a m b d'); [exact (records_pending c l d p _ CO CH E R)| |auto|exact Q].
  intros x Hx [= EX]. rewrite E in ND. unfold names in ND. rewrite !map_app in ND. apply NoDup_app_iff in ND as (_ & ND & _).
  apply NoDup_app_iff in ND as (_ & _ & ND). apply (ND _ (in_map (cl_name c) _ _ Hx)). cbn. auto.
Qed.
Print Assumptions C43_migrate_to_completes.
(** Without a name everything pending is applied. *)
Theorem C43_migrate_all : forall (M S : Type) (c : Coll M) (exec : string -> DBS S -> outcome (DBS S)) bk plan l p q d r s',
  coherent c -> chain c l -> scripts_keep_records c exec bk l -> l = p ++ q -> records c d p ->
  cli_migrate exec bk plan c None (conn_on d) = (r, s') ->
  exists done, (exists rest, q = done ++ rest) /\ seq (applies c exec bk) done d (cn_db s') /\
    records c (cn_db s') (p ++ done) /\ (r = Val tt -> done = q).
Proof.
  intros M S c exec bk plan l p q d r s' CO CH K E R H.
  destruct (migrate_to_effect c exec bk CO l CH plan _ (conn_on d) q r s' (records_pending c l d p _ CO CH E R) H) as (k & L & Q & B & F).
  exists (firstn k q). split; [exists (skipn k q); symmetry; apply firstn_skipn|]. split; [exact Q|].
  split; [eapply seq_records; [|exact R|exact Q]; eapply keep_incl; [|exact K]; intros x Hx; rewrite E, in_app_iff; right; eapply In_firstn, Hx|].
  intros Er. apply firstn_all2.
  destruct (F Er) as [->|(n & a' & m' & b' & En & _)]; [lia|discriminate].
Qed.
Print Assumptions C43_migrate_all.
Example C43_migrate_example :
  (let '(r, s) := cli_migrate ex_exec "toy" no_fault (mem_coll ex_store) (Some "b"%string) (conn_on {| dbs_rest := ["a"]; dbs_mig := Some ["a"] |}) in (r, cn_db s))
  = (Val tt, {| dbs_rest := ["b"; "a"]; dbs_mig := Some ["a"; "b"] |}).
Proof. vm_compute. reflexivity. Qed.
(** Finding: a name that is not the name of a pending migration (misspelt, unknown or
    already applied) is not an error: everything pending is applied. *)
Theorem C43_migrate_unknown_name_refuted : forall n, ~ In n ["b"; "c"]%string -> exists s',
  cli_migrate ex_exec "toy" no_fault (mem_coll ex_store) (Some n) (conn_on {| dbs_rest := ["a"]; dbs_mig := Some ["a"] |}) = (Val tt, s') /\
  cn_db s' = {| dbs_rest := ["c"; "b"; "a"]; dbs_mig := Some ["a"; "b"; "c"] |}.
Proof.
  intros n N. apply (migrate_to_runs (mem_coll ex_store) ex_exec "toy" ex_store_coherent ex_chain ex_store_chain (Some n)
    (conn_on {| dbs_rest := ["a"]; dbs_mig := Some ["a"] |}) [ex_mig "b" (Some "a"%string)] (ex_mig "c" (Some "b"%string)) []).
  - exact (records_pending (mem_coll ex_store) ex_chain {| dbs_rest := ["a"]; dbs_mig := Some ["a"] |} [ex_mig "a" None] _ ex_store_coherent ex_store_chain eq_refl eq_refl).
  - intros x [<-|[]] [= E]. apply N. cbn. auto.
  - auto.
  - eapply seq_cons; [eexists _, _; split; [reflexivity|]; split; [reflexivity|]; eexists; split; [reflexivity|]; split; [|reflexivity]; cbn; intuition discriminate|].
    eapply seq_cons; [eexists _, _; split; [reflexivity|]; split; [reflexivity|]; eexists; split; [reflexivity|]; split; [|reflexivity]; cbn; intuition discriminate|].
    constructor.
Qed.
Print Assumptions C43_migrate_unknown_name_refuted.

(** Rolling back to [m], with [b] applied after it: whatever fails on the way, the last
    ones of [b] have been downgraded, newest first, and all of them on success. *)
Theorem C43_rollback_to : forall (M S : Type) (c : Coll M) (exec : string -> DBS S -> outcome (DBS S)) bk plan l a m b q d r s',
  coherent c -> chain c l -> scripts_keep_records c exec bk l -> l = (a ++ m :: b) ++ q -> b <> [] -> records c d (a ++ m :: b) ->
  cli_unmigrate exec bk plan c (Some (cl_name c m)) (conn_on d) = (r, s') ->
  exists kept undone, b = kept ++ undone /\ seq (downgrades c exec bk) (rev undone) d (cn_db s') /\
    records c (cn_db s') (a ++ m :: kept) /\ (r = Val tt -> kept = []).
Proof.
  intros M S c exec bk plan l a m b q d r s' CO CH K E NE R H. pose proof (chain_NoDup c CO l CH) as ND. cbn [cli_unmigrate] in H.
  destruct (unmigrate_to_effect c exec bk CO l CH plan a m b q (conn_on d) r s' E NE R H) as (k & L & Q & F).
  exists (firstn (length b - k) b), (skipn (length b - k) b). split; [symmetry; apply firstn_skipn|].
  split. { rewrite firstn_rev in Q. exact Q. }
  split.
  - assert (Q' : seq (downs c exec bk) (firstn k (rev (a ++ m :: b))) d (cn_db s')).
    { change (a ++ m :: b) with (a ++ [m] ++ b). rewrite app_assoc, rev_app_distr, firstn_app, rev_length.
      replace (k - length b) with 0 by lia. cbn [firstn]. rewrite app_nil_r. now apply seq_downs. }
    assert (ND' : NoDup (names c (a ++ m :: b))).
    { rewrite E in ND. unfold names in *. rewrite map_app in ND. now apply NoDup_app_iff in ND. }
    assert (LK : k <= length (a ++ m :: b)) by (rewrite app_length; cbn [length]; lia).
    assert (K' : scripts_keep_records c exec bk (a ++ m :: b)) by (eapply keep_incl; [|exact K]; intros x Hx; rewrite E; apply in_or_app; auto).
    pose proof (seq_downs_records c exec bk _ _ _ _ CO ND' K' R LK Q') as RR.
    replace (length (a ++ m :: b) - k) with (length (a ++ [m]) + (length b - k)) in RR by (rewrite !app_length; cbn [length]; lia).
    change (a ++ m :: b) with (a ++ [m] ++ b) in RR. rewrite app_assoc, firstn_app_2, <- app_assoc in RR. exact RR.
  - intros Er. rewrite (F Er), Nat.sub_diag. reflexivity.
Qed.
Print Assumptions C43_rollback_to.
Theorem C43_rollback_to_completes : forall (M S : Type) (c : Coll M) (exec : string -> DBS S -> outcome (DBS S)) bk l a m b q d d',
  coherent c -> chain c l -> l = (a ++ m :: b) ++ q -> b <> [] -> records c d (a ++ m :: b) ->
  seq (downgrades c exec bk) (rev b) d d' ->
  exists s', cli_unmigrate exec bk no_fault c (Some (cl_name c m)) (conn_on d) = (Val tt, s') /\ cn_db s' = d'.
Proof.
  intros M S c exec bk l a m b q d d' CO CH E NE R Q.
  exact (unmigrate_to_runs c exec bk CO l CH a m b q (conn_on d) d' E NE R Q).
Qed.
Print Assumptions C43_rollback_to_completes.
(** If the downgrades undo what applying did, the database is that of the shorter
    applied prefix. *)
Theorem C43_rollback_restores : forall (M S : Type) (c : Coll M) (exec : string -> DBS S -> outcome (DBS S)) bk plan l a m b q d0 d s',
  coherent c -> chain c l -> l = (a ++ m :: b) ++ q -> b <> [] -> records c d (a ++ m :: b) ->
  (forall x, In x b -> undoes c exec bk x) -> seq (applies c exec bk) b d0 d ->
  cli_unmigrate exec bk plan c (Some (cl_name c m)) (conn_on d) = (Val tt, s') -> cn_db s' = d0.
Proof.
  intros M S c exec bk plan l a m b q d0 d s' CO CH E NE R U A H. cbn [cli_unmigrate] in H.
  destruct (unmigrate_to_effect c exec bk CO l CH plan a m b q (conn_on d) _ s' E NE R H) as (k & L & Q & F).
  rewrite (F eq_refl) in *. apply seq_downs in Q.
  assert (Z : seq (applies c exec bk) (firstn (length b - length b) b) d0 (cn_db s')).
  { eapply seq_downs_back; [|exact A|apply Nat.le_refl|exact Q].
    intros x x1 x2 Hx Ha x3 Hd. apply downs_downgrades in Hd. exact (U x Hx _ _ _ Ha Hd). }
  rewrite Nat.sub_diag in Z. now apply seq_nil_inv in Z.
Qed.
Print Assumptions C43_rollback_restores.
(** Rolling back to any other name (unknown, not in the chain, pending, or the last
    applied one) never succeeds and changes nothing. *)
Theorem C43_rollback_other_name : forall (M S : Type) (c : Coll M) (exec : string -> DBS S -> outcome (DBS S)) bk plan l p q n d r s',
  coherent c -> chain c l -> l = p ++ q -> records c d p ->
  (forall a m b, p = a ++ m :: b -> cl_name c m = n -> b = []) ->
  cli_unmigrate exec bk plan c (Some n) (conn_on d) = (r, s') -> cn_db s' = d /\ r <> Val tt.
Proof.
  intros M S c exec bk plan l p q n d r s' CO CH E R NN H.
  exact (unmigrate_to_other c exec bk CO l CH plan p q n (conn_on d) r s' E R NN H).
Qed.
Print Assumptions C43_rollback_other_name.
(** Without a name the last applied migration is rolled back; with none applied it is an
    error. *)
Theorem C43_rollback_latest : forall (M S : Type) (c : Coll M) (exec : string -> DBS S -> outcome (DBS S)) bk plan l p q d r s',
  coherent c -> chain c l -> l = p ++ q -> records c d p ->
  cli_unmigrate exec bk plan c None (conn_on d) = (r, s') ->
  (cn_db s' = d /\ r <> Val tt) \/ (exists a m, p = a ++ [m] /\ downgrades c exec bk m d (cn_db s')).
Proof.
  intros M S c exec bk plan l p q d r s' CO CH E R. cbn [cli_unmigrate]. unfold cli_unmigrate_latest, bind.
  destruct (last_applied plan c (conn_on d)) as [r1 s1] eqn:EL.
  destruct (last_of_records c CO l CH plan p q (conn_on d) _ _ E R EL) as [D F]. cbn in D.
  destruct r1 as [o|e|]; [|intros [= <- <-]; left; split; [exact D|discriminate]..].
  specialize (F o eq_refl). destruct o as [m|]; [|intros [= <- <-]; left; split; [exact D|discriminate]].
  intros H. apply downgrade_effect in H as (_ & [[D2 N]|D2]); [left; split; [congruence|exact N]|].
  right. destruct p as [|y p _] using rev_ind; [discriminate|]. rewrite map_app in F. cbn [map] in F. rewrite last_last in F.
  injection F as ->. exists p, y. split; [reflexivity|]. apply downs_downgrades. rewrite D in D2. exact D2.
Qed.
Print Assumptions C43_rollback_latest.
Theorem C43_rollback_latest_completes : forall (M S : Type) (c : Coll M) (exec : string -> DBS S -> outcome (DBS S)) bk l a m q d d',
  coherent c -> chain c l -> l = (a ++ [m]) ++ q -> records c d (a ++ [m]) -> downgrades c exec bk m d d' ->
  exists s', cli_unmigrate exec bk no_fault c None (conn_on d) = (Val tt, s') /\ cn_db s' = d'.
Proof.
  intros M S c exec bk l a m q d d' CO CH E R D. cbn [cli_unmigrate]. unfold cli_unmigrate_latest, bind.
  destruct (last_of_records_runs c CO l CH (a ++ [m]) q (conn_on d) E R) as (s1 & -> & D1).
  rewrite map_app. cbn [map]. rewrite last_last. apply downgrade_runs. apply downs_downgrades. now rewrite D1.
Qed.
Print Assumptions C43_rollback_latest_completes.
Example C43_rollback_example :
  (let '(r, s) := cli_unmigrate ex_exec "toy" no_fault (mem_coll ex_store) (Some "a"%string)
     (conn_on {| dbs_rest := ["b"; "a"]; dbs_mig := Some ["a"; "b"] |}) in (r, cn_db s))
  = (Val tt, {| dbs_rest := ["a"]; dbs_mig := Some ["a"] |}) /\
  (let '(r, s) := cli_unmigrate ex_exec "toy" no_fault (mem_coll ex_store) (Some "a"%string)
     (conn_on {| dbs_rest := ["c"; "b"; "a"]; dbs_mig := Some ["a"; "b"; "c"] |}) in (r, cn_db s))
  = (Val tt, {| dbs_rest := ["a"]; dbs_mig := Some ["a"] |}).
Proof. split; vm_compute; reflexivity. Qed.
(** Finding: a name in the chain newer than the last applied migration (and not the very
    last of the chain) is not reported but panics. *)
Theorem C43_rollback_pending_name_refuted : exists s',
  cli_unmigrate ex_exec "toy" no_fault (mem_coll ex_store) (Some "b"%string)
    (conn_on {| dbs_rest := ["a"]; dbs_mig := Some ["a"] |}) = (Stop, s').
Proof. eexists. vm_compute. reflexivity. Qed.
Print Assumptions C43_rollback_pending_name_refuted.

(** The listing shows every migration of the chain once, in order, and says "applied"
    exactly for the applied ones. *)
Theorem C43_list : forall (M S : Type) (c : Coll M) plan l p q (d : DBS S) r s',
  coherent c -> chain c l -> l = p ++ q -> records c d p ->
  cli_list plan c (conn_on d) = (r, s') ->
  cn_db s' = d /\ (forall x, r = Val x -> x = map (fun n => (n, true)) (names c p) ++ map (fun n => (n, false)) (names c q)).
Proof.
  intros M S c plan l p q d r s' CO CH E R. pose proof (chain_NoDup c CO l CH) as ND.
  unfold cli_list, bind at 1. destruct (unapplied plan c (conn_on d)) as [r1 s1] eqn:EU.
  destruct (proj2 (C10_reading_is_safe M S c plan l p q d CO CH E R) _ _ EU) as [D F].
  destruct r1 as [u|e|]; [|intros [= <- <-]; split; [exact D|discriminate]..].
  specialize (F u eq_refl). subst u. unfold bind, lift, ret. rewrite (chain_all c CO l CH).
  intros [= <- <-]. split; [exact D|]. intros x [= <-]. rewrite E in ND |- *. unfold names in *. rewrite !map_map, map_app.
  rewrite map_app in ND. apply NoDup_app_iff in ND as (_ & _ & ND). f_equal; apply map_ext_in; intros m Hm; f_equal.
  - apply negb_true_iff. destruct (existsb _ q) eqn:X; [|reflexivity]. exfalso. apply existsb_exists in X as (y & Hy & Ey).
    apply String.eqb_eq in Ey. apply (ND (cl_name c m) (in_map _ _ _ Hm)). rewrite <- Ey. now apply in_map.
  - apply negb_false_iff. apply existsb_exists. exists m. split; [exact Hm|apply String.eqb_refl].
Qed.
Print Assumptions C43_list.
Theorem C43_list_answers : forall (M S : Type) (c : Coll M) l p q (d : DBS S),
  coherent c -> chain c l -> l = p ++ q -> records c d p -> exists x s', cli_list no_fault c (conn_on d) = (Val x, s').
Proof.
  intros M S c l p q d CO CH E R. destruct (proj2 (C10_applied_unapplied_partition M S c l p q d CO CH E R)) as (s' & EU & _).
  unfold cli_list, bind at 1. rewrite EU. unfold bind, lift, ret. rewrite (chain_all c CO l CH). eauto.
Qed.
Print Assumptions C43_list_answers.
Example C43_list_example : fst (cli_list no_fault (mem_coll ex_store) (conn_on {| dbs_rest := ["a"]; dbs_mig := Some ["a"] |}))
  = Val [("a", true); ("b", false); ("c", false)].
Proof. vm_compute. reflexivity. Qed.
