(** What the CLI's migrate and rollback do to the database. *)
From Verif Require Import Base Chain ChainSpec ChainProofs Cli.

Section Cli.
  Context {M S : Type} (c : Coll M) (exec : string -> DBS S -> outcome (DBS S)) (bk : string).
  Hypothesis CO : coherent c.

  Lemma apply_until_effect plan name l : forall s r s', apply_until exec bk plan c name l s = (r, s') ->
    exists k, k <= length l /\ seq (applies c exec bk) (firstn k l) (cn_db s) (cn_db s') /\
      (forall n a m b, name = Some n -> l = a ++ m :: b -> cl_name c m = n -> k <= length a + 1) /\
      (r = Val tt -> (k = length l \/ exists n a m b, name = Some n /\ l = a ++ m :: b /\ cl_name c m = n /\ k = length a + 1)).
  Proof.
    induction l as [|m l IH]; intros s r s'; cbn [apply_until].
    - intros [= <- <-]. exists 0. split; [cbn; lia|]. split; [constructor|]. split; [intros; lia|]. intros _. left. reflexivity.
    - unfold bind. destruct (apply exec bk plan c m s) as [r1 s1] eqn:E. apply apply_effect in E as (_ & [[D N]|D]).
      + destruct r1 as [[]|e|]; [congruence| |]; intros [= <- <-]; exists 0; rewrite D;
          (split; [lia|]; split; [constructor|]; split; [intros; lia|discriminate]).
      + assert (one : forall r, r <> Val tt -> (r, s1) = (r, s') -> exists k, k <= length (m :: l) /\
            seq (applies c exec bk) (firstn k (m :: l)) (cn_db s) (cn_db s') /\
            (forall n a m0 b, name = Some n -> m :: l = a ++ m0 :: b -> cl_name c m0 = n -> k <= length a + 1) /\
            (r = Val tt -> (k = length (m :: l) \/ exists n a m0 b, name = Some n /\ m :: l = a ++ m0 :: b /\ cl_name c m0 = n /\ k = length a + 1))).
        { intros r0 N [= <-]. exists 1. split; [cbn; lia|]. split; [econstructor; [exact D|constructor]|].
          split; [intros; lia|contradiction]. }
        destruct r1 as [[]|e|].
        2,3: intros H; injection H as <- <-; apply one; [discriminate|reflexivity].
        assert (go : apply_until exec bk plan c name l s1 = (r, s') -> (forall n, name = Some n -> cl_name c m <> n) ->
            exists k, k <= length (m :: l) /\ seq (applies c exec bk) (firstn k (m :: l)) (cn_db s) (cn_db s') /\
            (forall n a m0 b, name = Some n -> m :: l = a ++ m0 :: b -> cl_name c m0 = n -> k <= length a + 1) /\
            (r = Val tt -> (k = length (m :: l) \/ exists n a m0 b, name = Some n /\ m :: l = a ++ m0 :: b /\ cl_name c m0 = n /\ k = length a + 1))).
        { intros H Nn. apply IH in H as (k & L & Q & B & F). exists (Datatypes.S k). split; [cbn; lia|].
          split; [econstructor; [exact D|exact Q]|]. split.
          - intros n a x b En El Ex. destruct a as [|y a]; injection El as -> El.
            + destruct (Nn _ En Ex).
            + cbn. specialize (B n a x b En El Ex). lia.
          - intros ->. destruct (F eq_refl) as [->|(n & a & x & b & En & El & Ex & Ek)]; [left; reflexivity|].
            right. exists n, (m :: a), x, b. split; [exact En|]. split; [cbn; congruence|]. split; [exact Ex|]. cbn. lia. }
        destruct name as [n|]; [|intros H; apply go; [exact H|discriminate]].
        destruct (String.eqb_spec n (cl_name c m)) as [En|Nn].
        * intros [= <- <-]. exists 1. split; [cbn; lia|]. split; [econstructor; [exact D|constructor]|].
          split; [intros; lia|]. intros _. right. exists n, [], m, l. split; [reflexivity|]. split; [reflexivity|]. split; [congruence|reflexivity].
        * intros H. apply go; [exact H|]. intros n' [= <-]. congruence.
  Qed.
  Lemma apply_runs m s d' : applies c exec bk m (cn_db s) d' ->
    exists s', apply exec bk no_fault c m s = (Val tt, s') /\ cn_db s' = d'.
  Proof.
    intros A. destruct (apply_each_runs c exec bk [m] s d') as (s' & E & D); [econstructor; [exact A|constructor]|].
    exists s'. split; [|exact D]. cbn in E. unfold bind in E. destruct (apply exec bk no_fault c m s) as [[[]|e|] s1]; cbn in E; unfold ret in E; congruence.
  Qed.
  Lemma apply_until_runs name a m b : (forall x, In x a -> name <> Some (cl_name c x)) -> (name = Some (cl_name c m) \/ b = []) ->
    forall s d', seq (applies c exec bk) (a ++ [m]) (cn_db s) d' ->
    exists s', apply_until exec bk no_fault c name (a ++ m :: b) s = (Val tt, s') /\ cn_db s' = d'.
  Proof.
    intros Na Hm. induction a as [|x a IH]; intros s d' Q; cbn [app] in Q; cbn [apply_until app];
      apply seq_inv in Q as (d1 & A & Q); destruct (apply_runs _ _ _ A) as (s1 & E1 & D1); unfold bind; rewrite E1.
    - apply seq_nil_inv in Q. subst d'. exists s1. split; [|exact D1]. destruct Hm as [->| ->].
      + now rewrite String.eqb_refl.
      + cbn. destruct name as [n|]; [destruct (String.eqb n _)|]; reflexivity.
    - rewrite <- D1 in Q. assert (IH' : exists s', apply_until exec bk no_fault c name (a ++ m :: b) s1 = (Val tt, s') /\ cn_db s' = d').
      { apply IH; [|exact Q]. intros y Hy. apply Na. now right. }
      destruct name as [n|]; [|exact IH']. destruct (String.eqb_spec n (cl_name c x)) as [->|N]; [|exact IH'].
      destruct (Na x (or_introl eq_refl) eq_refl).
  Qed.

  Section Chain.
    Variable l : list M.
    Hypothesis CH : chain c l.

    Lemma migrate_to_effect plan n s q r s' : pending_of c l (cn_db s) q ->
      cli_migrate exec bk plan c n s = (r, s') ->
      exists k, k <= length q /\ seq (applies c exec bk) (firstn k q) (cn_db s) (cn_db s') /\
        (forall x a m b, n = Some x -> q = a ++ m :: b -> cl_name c m = x -> k <= length a + 1) /\
        (r = Val tt -> (k = length q \/ exists x a m b, n = Some x /\ q = a ++ m :: b /\ cl_name c m = x /\ k = length a + 1)).
    Proof using CO CH.
      intros P. unfold cli_migrate, bind at 1. destruct (unapplied plan c s) as [r1 s1] eqn:E.
      apply (unapplied_effect _ _ _ _ _ _ CO CH) in E as (D & R). destruct r1 as [q'|e|].
      - assert (q' = q) by (eapply pending_fun; eauto using chain_NoDup). subst q'.
        intros H. apply apply_until_effect in H. now rewrite D in H.
      - intros [= <- <-]. exists 0. rewrite D. split; [lia|]. split; [constructor|]. split; [intros; lia|discriminate].
      - intros [= <- <-]. exists 0. rewrite D. split; [lia|]. split; [constructor|]. split; [intros; lia|discriminate].
    Qed.
    Lemma migrate_to_runs n s a m b d' : pending_of c l (cn_db s) (a ++ m :: b) ->
      (forall x, In x a -> n <> Some (cl_name c x)) -> (n = Some (cl_name c m) \/ b = []) ->
      seq (applies c exec bk) (a ++ [m]) (cn_db s) d' ->
      exists s', cli_migrate exec bk no_fault c n s = (Val tt, s') /\ cn_db s' = d'.
    Proof using CO CH.
      intros P Na Hm Q. destruct (unapplied_runs c l s CO CH) as (q' & s1 & E & D & P').
      assert (q' = a ++ m :: b) by (eapply pending_fun; eauto using chain_NoDup). subst q'.
      unfold cli_migrate, bind at 1. rewrite E. apply apply_until_runs; auto. now rewrite D.
    Qed.

    Lemma downgrade_each_effect plan k : forall s r s', downgrade_each exec bk plan c k s = (r, s') ->
      exists j, j <= length k /\ seq (downgrades c exec bk) (firstn j k) (cn_db s) (cn_db s') /\ (r = Val tt -> j = length k).
    Proof.
      induction k as [|m k IH]; intros s r s'; cbn [downgrade_each].
      - intros [= <- <-]. exists 0. split; [lia|]. split; [constructor|reflexivity].
      - unfold bind. destruct (downgrade exec bk plan c m s) as [r1 s1] eqn:E.
        apply downgrade_effect in E as (_ & [[D N]|D]).
        + destruct r1 as [[]|e|]; [congruence| |]; intros [= <- <-]; exists 0; rewrite D;
            (split; [lia|]; split; [constructor|discriminate]).
        + assert (DG : downgrades c exec bk m (cn_db s) (cn_db s1)) by (apply downs_downgrades; exact D).
          destruct r1 as [[]|e|].
          * intros H. apply IH in H as (j & L & Q & F). exists (Datatypes.S j). split; [cbn; lia|].
            split; [econstructor; [exact DG|exact Q]|]. intros E. cbn. rewrite F by exact E. reflexivity.
          * intros [= <- <-]. exists 1. split; [cbn; lia|]. split; [econstructor; [exact DG|constructor]|discriminate].
          * intros [= <- <-]. exists 1. split; [cbn; lia|]. split; [econstructor; [exact DG|constructor]|discriminate].
    Qed.
    Lemma downgrade_each_runs k : forall s d', seq (downgrades c exec bk) k (cn_db s) d' ->
      exists s', downgrade_each exec bk no_fault c k s = (Val tt, s') /\ cn_db s' = d'.
    Proof.
      induction k as [|m k IH]; intros s d' Q; cbn [downgrade_each].
      - apply seq_nil_inv in Q. subst. exists s. auto.
      - apply seq_inv in Q as (d1 & A & Q). apply downs_downgrades in A.
        destruct (downgrade_runs c exec bk m s d1 A) as (s1 & E & D). unfold bind. rewrite E. apply IH. now rewrite D.
    Qed.

    Lemma position_at a m b : NoDup (names c (a ++ m :: b)) -> position c (cl_name c m) (a ++ m :: b) = Some (length a).
    Proof.
      induction a as [|x a IH]; intros ND; cbn.
      - now rewrite String.eqb_refl.
      - cbn in ND. apply NoDup_cons_iff in ND as [Nx ND]. destruct (String.eqb_spec (cl_name c x) (cl_name c m)) as [E|N].
        + destruct Nx. rewrite E. unfold names. rewrite map_app, in_app_iff. cbn. auto.
        + rewrite IH by exact ND. reflexivity.
    Qed.
    Lemma position_absent n k : ~ In n (names c k) -> position c n k = None.
    Proof.
      induction k as [|x k IH]; intros N; cbn; [reflexivity|].
      destruct (String.eqb_spec (cl_name c x) n) as [E|_]; [destruct N; now left|].
      rewrite IH; [reflexivity|]. intros H. apply N. now right.
    Qed.
    Lemma upto_split a m b : NoDup (names c (a ++ m :: b)) -> upto_latest c (a ++ m :: b) m = Ok (a ++ [m]).
    Proof.
      intros ND. unfold upto_latest. destruct b as [|y b _] using rev_ind.
      - rewrite map_app. cbn [map]. rewrite last_last, String.eqb_refl. reflexivity.
      - rewrite app_comm_cons, app_assoc, map_app. cbn [map]. rewrite last_last.
        destruct (String.eqb_spec (cl_name c y) (cl_name c m)) as [E|N].
        + exfalso. unfold names in ND. rewrite map_app in ND. apply NoDup_app_iff in ND as (_ & ND & _).
          cbn in ND. apply NoDup_cons_iff in ND as [X _]. apply X. rewrite <- E, map_app, in_app_iff. cbn. auto.
        + rewrite <- app_assoc. cbn [app]. rewrite (position_at a m (b ++ [y]) ND).
          f_equal. rewrite Nat.add_1_r. change (a ++ m :: b ++ [y]) with (a ++ ([m] ++ (b ++ [y]))).
          rewrite app_assoc. rewrite firstn_app. replace (Datatypes.S (length a) - length (a ++ [m])) with 0 by (rewrite app_length; cbn [length]; lia).
          change (firstn 0 (b ++ [y])) with (@nil M). rewrite app_nil_r. apply firstn_all2. rewrite app_length. cbn [length]. lia.
    Qed.
    Lemma upto_absent k m : k <> [] -> ~ In (cl_name c m) (names c k) -> upto_latest c k m = Panic.
    Proof.
      intros NE N. unfold upto_latest. destruct k as [|y b _] using rev_ind; [congruence|].
      rewrite map_app. cbn [map]. rewrite last_last.
      destruct (String.eqb_spec (cl_name c y) (cl_name c m)) as [E|_].
      - destruct N. rewrite <- E. unfold names. rewrite map_app, in_app_iff. cbn. auto.
      - rewrite position_absent by exact N. reflexivity.
    Qed.
    (** The migration found under a name in the chain is that of the chain. *)
    Lemma chain_member_get m : In m l -> cl_get c (cl_name c m) = Some m.
    Proof using CO CH.
      intros Hm. refine (walk_get c CO _ _ _ (chain_walk_latest c l CH) _ m _).
      - intros x Hx. now apply CO.
      - now apply -> in_rev.
    Qed.
    Lemma last_of_records plan p q (s : Conn S) r s' : l = p ++ q -> records c (cn_db s) p -> last_applied plan c s = (r, s') ->
      cn_db s' = cn_db s /\ (forall o, r = Val o -> o = last (map Some p) None).
    Proof using CO CH.
      intros E R EL. pose proof (chain_NoDup c CO l CH) as ND.
      apply (last_applied_effect _ _ _ _ _ _ CO CH) in EL as (D & LR). split; [exact D|]. intros o ->.
      subst l. eapply last_recorded_fun; [exact ND|exact LR|]. apply last_recorded_prefix; [exact ND|].
      intros n. unfold records in R. unfold rows. destruct (dbs_mig (cn_db s)); subst; reflexivity.
    Qed.
    Lemma last_of_records_runs p q (s : Conn S) : l = p ++ q -> records c (cn_db s) p ->
      exists s', last_applied no_fault c s = (Val (last (map Some p) None), s') /\ cn_db s' = cn_db s.
    Proof using CO CH.
      intros E R. destruct (last_applied_runs c l s CO CH) as (o & s' & EL & D & _). exists s'. split; [|exact D].
      destruct (last_of_records no_fault p q s _ _ E R EL) as [_ F]. now rewrite <- (F o eq_refl).
    Qed.

    Lemma unmigrate_to_effect plan a m b q s r s' : l = (a ++ m :: b) ++ q -> b <> [] -> records c (cn_db s) (a ++ m :: b) ->
      cli_unmigrate_to exec bk plan c (cl_name c m) s = (r, s') ->
      exists k, k <= length b /\ seq (downgrades c exec bk) (firstn k (rev b)) (cn_db s) (cn_db s') /\ (r = Val tt -> k = length b).
    Proof using CO CH.
      intros E NE R. pose proof (chain_NoDup c CO l CH) as ND. unfold cli_unmigrate_to.
      rewrite (chain_member_get m) by (rewrite E, in_app_iff, in_app_iff; cbn; auto).
      unfold bind at 1. destruct (last_applied plan c s) as [r1 s1] eqn:EL.
      destruct (last_of_records plan _ q s _ _ E R EL) as [D F].
      assert (none : forall r0 : res unit, r0 <> Val tt -> (r0, s1) = (r, s') -> exists k, k <= length b /\
        seq (downgrades c exec bk) (firstn k (rev b)) (cn_db s) (cn_db s') /\ (r = Val tt -> k = length b)).
      { intros r0 N [= <- <-]. exists 0. rewrite D. split; [lia|]. split; [constructor|contradiction]. }
      destruct r1 as [o|e|].
      2,3: intros H; (eapply none; [|exact H]; discriminate).
      specialize (F o eq_refl). destruct b as [|y b _] using rev_ind; [congruence|].
      rewrite app_comm_cons, app_assoc, map_app in F. cbn [map] in F. rewrite last_last in F. subst o.
      destruct (String.eqb_spec (cl_name c m) (cl_name c y)) as [X|_].
      { exfalso. subst l. unfold names in ND. rewrite !map_app in ND. apply NoDup_app_iff in ND as (ND & _ & _).
        apply NoDup_app_iff in ND as (_ & ND & _). cbn in ND. apply NoDup_cons_iff in ND as [N _]. apply N.
        rewrite X, map_app, in_app_iff. cbn. auto. }
      assert (ES : migrations_since c m = Ok ((b ++ [y]) ++ q)).
      { apply (since_latest c CO l a m _ CH). rewrite E, <- app_assoc. reflexivity. }
      unfold bind at 1. unfold lift at 1. rewrite ES.
      replace ((b ++ [y]) ++ q) with (b ++ y :: q) by (now rewrite <- app_assoc).
      destruct (b ++ y :: q) as [|z zs] eqn:EZ; [destruct b; discriminate|]. rewrite <- EZ.
      unfold bind at 1. unfold lift at 1. rewrite upto_split.
      - intros H. apply downgrade_each_effect in H. now rewrite rev_length, D in H.
      - subst l. unfold names in *. rewrite <- app_assoc in ND. cbn [app] in ND. rewrite map_app in ND.
        apply NoDup_app_iff in ND as (_ & ND & _). cbn in ND. apply NoDup_cons_iff in ND as [_ ND].
        now rewrite <- app_assoc in ND.
    Qed.
    Lemma unmigrate_to_runs a m b q s d' : l = (a ++ m :: b) ++ q -> b <> [] -> records c (cn_db s) (a ++ m :: b) ->
      seq (downgrades c exec bk) (rev b) (cn_db s) d' ->
      exists s', cli_unmigrate_to exec bk no_fault c (cl_name c m) s = (Val tt, s') /\ cn_db s' = d'.
    Proof using CO CH.
      intros E NE R Q. pose proof (chain_NoDup c CO l CH) as ND. unfold cli_unmigrate_to.
      rewrite (chain_member_get m) by (rewrite E, in_app_iff, in_app_iff; cbn; auto).
      destruct (last_of_records_runs _ q s E R) as (s1 & EL & D). unfold bind at 1. rewrite EL.
      destruct b as [|y b _] using rev_ind; [congruence|].
      rewrite app_comm_cons, app_assoc, map_app. cbn [map]. rewrite last_last.
      destruct (String.eqb_spec (cl_name c m) (cl_name c y)) as [X|_].
      { exfalso. subst l. unfold names in ND. rewrite !map_app in ND. apply NoDup_app_iff in ND as (ND & _ & _).
        apply NoDup_app_iff in ND as (_ & ND & _). cbn in ND. apply NoDup_cons_iff in ND as [N _]. apply N.
        rewrite X, map_app, in_app_iff. cbn. auto. }
      assert (ES : migrations_since c m = Ok ((b ++ [y]) ++ q)).
      { apply (since_latest c CO l a m _ CH). rewrite E, <- app_assoc. reflexivity. }
      unfold bind at 1. unfold lift at 1. rewrite ES.
      replace ((b ++ [y]) ++ q) with (b ++ y :: q) by (now rewrite <- app_assoc).
      destruct (b ++ y :: q) as [|z zs] eqn:EZ; [destruct b; discriminate|]. rewrite <- EZ.
      unfold bind at 1. unfold lift at 1. rewrite upto_split.
      - apply downgrade_each_runs. now rewrite D.
      - subst l. unfold names in *. rewrite <- app_assoc in ND. cbn [app] in ND. rewrite map_app in ND.
        apply NoDup_app_iff in ND as (_ & ND & _). cbn in ND. apply NoDup_cons_iff in ND as [_ ND].
        now rewrite <- app_assoc in ND.
    Qed.
    (** Any name that does not name an applied migration other than the last one. *)
    Lemma unmigrate_to_other plan p q n s r s' : l = p ++ q -> records c (cn_db s) p ->
      (forall a m b, p = a ++ m :: b -> cl_name c m = n -> b = []) ->
      cli_unmigrate_to exec bk plan c n s = (r, s') -> cn_db s' = cn_db s /\ r <> Val tt.
    Proof using CO CH.
      intros E R NN. unfold cli_unmigrate_to. destruct (cl_get c n) as [m|] eqn:G.
      2:{ intros [= <- <-]. split; [reflexivity|discriminate]. }
      assert (En : cl_name c m = n) by now apply CO.
      unfold bind at 1. destruct (last_applied plan c s) as [r1 s1] eqn:EL.
      destruct (last_of_records plan _ q s _ _ E R EL) as [D F]. rewrite <- D.
      destruct r1 as [o|e|]; [|intros [= <- <-]; split; [reflexivity|discriminate]..].
      destruct o as [x|]; [|intros [= <- <-]; split; [reflexivity|discriminate]].
      destruct (String.eqb_spec (cl_name c m) (cl_name c x)) as [X|N]; [intros [= <- <-]; split; [reflexivity|discriminate]|].
      specialize (F _ eq_refl). destruct p as [|y p _] using rev_ind; [discriminate|].
      rewrite map_app in F. cbn [map] in F. rewrite last_last in F. injection F as ->.
      unfold bind at 1. unfold lift at 1.
      destruct (in_dec string_dec (cl_name c m) (names c l)) as [I|N2].
      2:{ rewrite (since_absent c CO l m CH N2). intros [= <- <-]. split; [reflexivity|discriminate]. }
      unfold names in I. apply in_map_iff in I as (m' & Em & I).
      assert (m' = m). { pose proof (chain_member_get m' I) as G'. rewrite Em, En in G'. congruence. } subst m'.
      rewrite E in I. apply in_app_iff in I as [I|I].
      { apply in_split in I as (a & b & Ep). specialize (NN a m b Ep En). subst b. apply app_inj_tail in Ep as [_ ->]. congruence. }
      apply in_split in I as (a & b & Eq). subst q.
      assert (ES : migrations_since c m = Ok b).
      { apply (since_latest c CO l ((p ++ [y]) ++ a) m _ CH). rewrite E. rewrite <- !app_assoc. reflexivity. }
      rewrite ES. destruct b as [|z b]; [intros [= <- <-]; split; [reflexivity|discriminate]|].
      rewrite upto_absent.
      - intros [= <- <-]. split; [reflexivity|discriminate].
      - discriminate.
      - pose proof (chain_NoDup c CO l CH) as ND. rewrite E in ND. unfold names in *. rewrite !map_app in ND.
        rewrite <- app_assoc in ND. apply NoDup_app_iff in ND as (_ & ND & _). cbn [map app] in ND.
        apply NoDup_cons_iff in ND as [N3 _]. intros I. apply N3. rewrite in_app_iff. right. now right.
    Qed.
  End Chain.
End Cli.
