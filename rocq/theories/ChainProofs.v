(** Proofs about the migration chain and its application. *)
From Verif Require Import Base Chain ChainSpec.

Lemma In_firstn {A} (x : A) k l : In x (firstn k l) -> In x l.
Proof. revert l. induction k as [|k IH]; intros [|y l]; cbn; intuition. Qed.

Section Walk.
  Context {M : Type} (c : Coll M).

  (** The migrations visited from [o], newest first, and how the walk ends. *)
  Inductive walk : option M -> list M -> outcome unit -> Prop :=
  | w_end : walk None [] (Ok tt)
  | w_step m p l w : parent c m = Ok p -> walk p l w -> walk (Some m) (m :: l) w
  | w_err m e : parent c m = Err e -> walk (Some m) [m] (Err e)
  | w_panic m : parent c m = Panic -> walk (Some m) [m] Panic.

  Lemma walk_det o l w : walk o l w -> forall l' w', walk o l' w' -> l' = l /\ w' = w.
  Proof.
    induction 1 as [|m p l w E W IH|m e E|m E]; intros l' w' W'; inversion W'; subst; try congruence.
    - auto.
    - assert (p0 = p) by congruence; subst. destruct (IH _ _ H1); subst; auto.
    - split; congruence.
    - auto.
  Qed.

  Definition finish (acc : list M) (w : outcome unit) : outcome (list M) :=
    match w with Ok _ => Ok (rev acc) | Err e => Err e | Panic => Panic end.

  Lemma all_loop_walk o l w : walk o l w -> forall fuel acc, length l <= fuel ->
    all_loop c fuel o acc = Some (finish (acc ++ l) w).
  Proof.
    induction 1 as [|m p l w E W IH|m e E|m E]; intros fuel acc L.
    - destruct fuel; cbn; now rewrite app_nil_r.
    - destruct fuel as [|fuel]; cbn in L; [lia|]. cbn. rewrite E, IH by lia.
      now rewrite <- app_assoc.
    - destruct fuel as [|fuel]; cbn in L; [lia|]. cbn. now rewrite E.
    - destruct fuel as [|fuel]; cbn in L; [lia|]. cbn. now rewrite E.
  Qed.
  Lemma walk_all_loop fuel : forall o acc r, all_loop c fuel o acc = Some r ->
    exists l w, walk o l w /\ length l <= fuel /\ r = finish (acc ++ l) w.
  Proof.
    induction fuel as [|fuel IH]; intros [m|] acc r H; cbn in H.
    - discriminate.
    - injection H as <-. exists [], (Ok tt). rewrite app_nil_r. repeat split; constructor.
    - destruct (parent c m) as [p|e|] eqn:E.
      + apply IH in H as (l & w & W & L & ->). exists (m :: l), w.
        rewrite <- app_assoc. repeat split; [econstructor; eauto|cbn; lia].
      + injection H as <-. exists [m], (Err e). repeat split; [now constructor|cbn; lia].
      + injection H as <-. exists [m], Panic. repeat split; [now constructor|cbn; lia].
    - injection H as <-. exists [], (Ok tt). rewrite app_nil_r. repeat split; [constructor|cbn; lia].
  Qed.

  Hypothesis CO : coherent c.

  (** Visited migrations are found under their own names. *)
  Lemma parent_get m p : parent c m = Ok (Some p) -> cl_get c (cl_name c p) = Some p.
  Proof.
    destruct CO as (C1 & _). unfold parent. destruct (cl_from c m) as [[n|]| |]; cbn; try discriminate.
    intros [= H]. now rewrite (C1 _ _ H).
  Qed.
  Lemma walk_get o l w : walk o l w ->
    (forall m, o = Some m -> cl_get c (cl_name c m) = Some m) ->
    forall x, In x l -> cl_get c (cl_name c x) = Some x.
  Proof.
    induction 1 as [|m p l w E W IH|m e E|m E]; cbn; intros G x Hx.
    - contradiction.
    - destruct Hx as [<-|Hx]; [auto|]. apply IH; [|exact Hx].
      intros q ->. exact (parent_get _ _ E).
    - destruct Hx as [<-|[]]; auto.
    - destruct Hx as [<-|[]]; auto.
  Qed.
  Lemma walk_suffix o l w : walk o l w -> forall a x b, l = a ++ x :: b ->
    walk (Some x) (x :: b) w.
  Proof.
    induction 1 as [|m p l w E W IH|m e E|m E]; intros a x b H.
    - destruct a; discriminate.
    - destruct a as [|y a]; injection H as <- H.
      + subst. econstructor; eauto.
      + eauto.
    - destruct a as [|y a]; injection H as <- H; [subst; now constructor|destruct a; discriminate].
    - destruct a as [|y a]; injection H as <- H; [subst; now constructor|destruct a; discriminate].
  Qed.
  Lemma walk_NoDup o l w : walk o l w ->
    (forall m, o = Some m -> cl_get c (cl_name c m) = Some m) -> NoDup (map (cl_name c) l).
  Proof.
    intros W G. pose proof (walk_get _ _ _ W G) as Get.
    assert (ND : NoDup l).
    { clear Get G. induction W as [|m p l w E W IH|m e E|m E]; constructor; auto using NoDup_nil.
      intros Hin. apply in_split in Hin as (a & b & ->).
      assert (W1 : walk (Some m) (m :: b) w) by (eapply walk_suffix; eauto).
      assert (W2 : walk (Some m) (m :: a ++ m :: b) w) by (econstructor; eauto).
      destruct (walk_det _ _ _ W1 _ _ W2) as [E2 _]. apply (f_equal (@length M)) in E2.
      cbn in E2. rewrite app_length in E2. cbn in E2. lia. }
    apply NoDup_map_in; [exact ND|]. intros x y Hx Hy E.
    pose proof (Get x Hx) as Gx. pose proof (Get y Hy) as Gy. rewrite E in Gx. congruence.
  Qed.
  Lemma walk_length o l w : walk o l w ->
    (forall m, o = Some m -> cl_get c (cl_name c m) = Some m) -> length l <= cl_bound c.
  Proof.
    intros W G. pose proof (walk_NoDup _ _ _ W G) as ND. pose proof (walk_get _ _ _ W G) as Get.
    destruct CO as (_ & _ & ns & L & Hns).
    rewrite <- (map_length (cl_name c)). etransitivity; [|exact L].
    apply NoDup_incl_length; [exact ND|]. intros n Hn. apply in_map_iff in Hn as (x & <- & Hx).
    exact (Hns _ _ (Get x Hx)).
  Qed.

  Lemma latest_get m : cl_latest c = Some m -> cl_get c (cl_name c m) = Some m.
  Proof. destruct CO as (_ & C2 & _). apply C2. Qed.

  (** Running out of [cl_bound] steps means never ending. *)
  Lemma walk_diverges : all_migrations_fuel c (cl_bound c) = None ->
    forall fuel, all_migrations_fuel c fuel = None.
  Proof.
    intros H fuel. destruct (all_migrations_fuel c fuel) as [r|] eqn:E; [|reflexivity].
    apply walk_all_loop in E as (l & w & W & _ & _).
    pose proof (walk_length _ _ _ W latest_get) as L.
    unfold all_migrations_fuel in H. rewrite (all_loop_walk _ _ _ W) in H by exact L. discriminate.
  Qed.

  Lemma parent_based m p : parent c m = Ok (Some p) <-> based_on c m p.
  Proof.
    unfold parent, based_on. destruct (cl_from c m) as [[n|]| |]; cbn; split.
    - intros [= H]; eauto.
    - intros (n' & [= <-] & ->); reflexivity.
    - discriminate.
    - intros (n' & H & _); discriminate.
    - discriminate.
    - intros (n' & H & _); discriminate.
    - discriminate.
    - intros (n' & H & _); discriminate.
  Qed.
  Lemma first_parent m : is_first c m -> parent c m = Ok None.
  Proof. unfold is_first, parent. intros ->. reflexivity. Qed.

  Lemma chain_walk m l : chain_to c m l -> walk (Some m) (rev l) (Ok tt).
  Proof.
    induction 1 as [m F|m p l B _ IH].
    - cbn. econstructor; [apply first_parent, F|constructor].
    - rewrite rev_app_distr. cbn. econstructor; [apply parent_based, B|exact IH].
  Qed.
  Lemma chain_det m l l' : chain_to c m l -> chain_to c m l' -> l = l'.
  Proof.
    intros H H'. apply chain_walk in H. apply chain_walk in H'.
    destruct (walk_det _ _ _ H _ _ H') as [E _]. apply (f_equal (@rev M)) in E.
    now rewrite !rev_involutive in E.
  Qed.
  Definition chain_walk_latest l : chain c l -> walk (cl_latest c) (rev l) (Ok tt).
  Proof.
    unfold chain. destruct (cl_latest c) as [m|]; [apply chain_walk|]. intros ->. constructor.
  Qed.
  Lemma chain_NoDup l : chain c l -> NoDup (names c l).
  Proof.
    intros H. apply chain_walk_latest in H. apply walk_NoDup in H; [|exact latest_get].
    rewrite map_rev in H. apply NoDup_rev in H. now rewrite rev_involutive in H.
  Qed.
  Lemma chain_length l : chain c l -> length l <= cl_bound c.
  Proof.
    intros H. apply chain_walk_latest, walk_length in H; [|exact latest_get].
    now rewrite rev_length in H.
  Qed.
  Lemma chain_all l : chain c l -> all_migrations c = Ok l.
  Proof.
    intros H. pose proof (chain_length _ H) as L. apply chain_walk_latest in H.
    unfold all_migrations, all_migrations_fuel. rewrite (all_loop_walk _ _ _ H).
    - cbn. now rewrite rev_involutive.
    - now rewrite rev_length.
  Qed.
  (** The ends of the chain. *)
  Lemma chain_to_last m l : chain_to c m l -> exists a, l = a ++ [m].
  Proof. intros H; inversion H; subst; [exists []|exists l0]; reflexivity. Qed.
  Lemma chain_to_prefix m l : chain_to c m l -> forall a x b, l = a ++ x :: b -> chain_to c x (a ++ [x]).
  Proof.
    induction 1 as [m F|m p l B C IH]; intros a x b E.
    - destruct a as [|y a]; injection E as <- E; [constructor; exact F|destruct a; discriminate].
    - destruct b as [|y b] using rev_ind.
      + apply app_inj_tail in E as [<- ->]. econstructor; eauto.
      + clear IHb. rewrite app_comm_cons, app_assoc in E. apply app_inj_tail in E as [E _]. eauto.
  Qed.
  Lemma chain_to_links m l : chain_to c m l ->
    forall a x y b, l = a ++ x :: y :: b -> based_on c y x.
  Proof.
    induction 1 as [m F|m p l B C IH]; intros a x y b E.
    - destruct a as [|z a]; [discriminate|]. injection E as _ E. destruct a; discriminate.
    - destruct b as [|z b] using rev_ind.
      + change (x :: [y]) with ([x] ++ [y]) in E. rewrite app_assoc in E.
        apply app_inj_tail in E as [E1 E2]. subst l m. destruct (chain_to_last _ _ C) as [a' E].
        apply app_inj_tail in E as [_ ->]. exact B.
      + clear IHb. rewrite !app_comm_cons, app_assoc in E. apply app_inj_tail in E as [E _]. eauto.
  Qed.
  Lemma chain_to_head m l : chain_to c m l -> exists f r, l = f :: r /\ is_first c f.
  Proof.
    induction 1 as [m F|m p l B C (f & r & -> & F)].
    - exists m, []. auto.
    - exists f, (r ++ [m]). auto.
  Qed.

  (** [all_migrations] succeeds exactly on finite walks without unreadable entries. *)
  Lemma all_migrations_ok l : all_migrations c = Ok l <-> walk (cl_latest c) (rev l) (Ok tt).
  Proof.
    unfold all_migrations. split.
    - destruct (all_migrations_fuel c (cl_bound c)) as [r|] eqn:E; cbn; [|discriminate].
      intros ->. apply walk_all_loop in E as (l' & w & W & _ & E).
      destruct w as [[]| |]; try discriminate. injection E as ->. now rewrite rev_involutive.
    - intros W. pose proof (walk_length _ _ _ W latest_get) as L.
      unfold all_migrations_fuel. rewrite (all_loop_walk _ _ _ W) by exact L.
      cbn. now rewrite rev_involutive.
  Qed.

  (** * Loops that stop on the way *)
  Lemma last_loop_chain rows m l : chain_to c m l -> forall fuel, length l <= fuel ->
    exists o, last_loop c fuel rows (Some m) = Some (Ok o) /\ last_recorded c rows l o.
  Proof.
    induction 1 as [m F|m p l B C IH]; intros fuel L.
    - destruct fuel as [|fuel]; cbn in L; [lia|]. cbn.
      destruct (existsb (String.eqb (cl_name c m)) rows) eqn:E.
      + exists (Some m). split; [reflexivity|]. exists [], []. split; [reflexivity|].
        apply existsb_exists in E as (x & Hx & E). apply String.eqb_eq in E. subst.
        split; [exact Hx|]. intros ? [].
      + rewrite (first_parent _ F). exists None. destruct fuel; (split; [reflexivity|]);
        intros x [<-|[]] Hin; enough (existsb (String.eqb (cl_name c m)) rows = true) by congruence;
        apply existsb_exists; exists (cl_name c m); (split; [exact Hin|apply String.eqb_refl]).
    - rewrite app_length in L. cbn in L. destruct fuel as [|fuel]; [lia|]. cbn.
      destruct (existsb (String.eqb (cl_name c m)) rows) eqn:E.
      + exists (Some m). split; [reflexivity|]. exists l, []. split; [reflexivity|].
        apply existsb_exists in E as (x & Hx & E). apply String.eqb_eq in E. subst.
        split; [exact Hx|]. intros ? [].
      + rewrite (proj2 (parent_based _ _) B). destruct (IH fuel ltac:(lia)) as (o & -> & R).
        exists o. split; [reflexivity|].
        assert (N : ~ In (cl_name c m) rows).
        { intros Hin. enough (existsb (String.eqb (cl_name c m)) rows = true) by congruence.
          apply existsb_exists; exists (cl_name c m); (split; [exact Hin|apply String.eqb_refl]). }
        destruct o as [q|]; cbn in *.
        * destruct R as (a & b & -> & Hq & Hb). exists a, (b ++ [m]).
          split; [now rewrite <- app_assoc|]. split; [exact Hq|].
          intros x Hx. apply in_app_iff in Hx as [Hx|[<-|[]]]; auto.
        * intros x Hx. apply in_app_iff in Hx as [Hx|[<-|[]]]; auto.
  Qed.
  Lemma last_loop_latest rows l : chain c l ->
    exists o, or_diverge (last_loop c (cl_bound c) rows (cl_latest c)) = Ok o /\ last_recorded c rows l o.
  Proof.
    intros H. pose proof (chain_length _ H) as L. unfold chain in H.
    destruct (cl_latest c) as [m|] eqn:E.
    - destruct (last_loop_chain rows _ _ H _ L) as (o & -> & R). exists o. auto.
    - subst. exists None. split; [destruct (cl_bound c); reflexivity|]. intros x [].
  Qed.
  Lemma since_loop_chain m l : chain_to c m l -> forall fuel acc a s b, length l <= fuel ->
    l = a ++ s :: b -> NoDup (names c l) ->
    since_loop c fuel s (Some m) acc = Some (Ok (b ++ rev acc)).
  Proof.
    induction 1 as [m F|m p l B C IH]; intros fuel acc a s b L E ND.
    - destruct a as [|y a]; injection E as <- E; [subst b|destruct a; discriminate].
      destruct fuel; cbn in L; [lia|]. cbn. rewrite String.eqb_refl. reflexivity.
    - rewrite app_length in L. cbn in L. destruct fuel as [|fuel]; [lia|]. cbn.
      destruct b as [|y b] using rev_ind.
      + apply app_inj_tail in E as [-> ->]. rewrite String.eqb_refl. reflexivity.
      + clear IHb. rewrite app_comm_cons, app_assoc in E. apply app_inj_tail in E as [-> ->].
        assert (N : String.eqb (cl_name c y) (cl_name c s) = false).
        { apply String.eqb_neq. intros E. unfold names in ND. rewrite map_app in ND.
          apply NoDup_app_iff in ND as (_ & _ & ND). apply (ND (cl_name c s)).
          - apply in_map. apply in_elt.
          - cbn. auto. }
        rewrite N, (proj2 (parent_based _ _) B).
        rewrite (IH fuel (acc ++ [y]) a s b).
        * now rewrite rev_app_distr, <- app_assoc.
        * lia.
        * reflexivity.
        * unfold names in *. rewrite map_app in ND. now apply NoDup_app_iff in ND.
  Qed.
  Lemma since_loop_absent m l : chain_to c m l -> forall fuel acc s, length l <= fuel ->
    ~ In (cl_name c s) (names c l) ->
    since_loop c fuel s (Some m) acc = Some (Err (MigrationError "Migration not in chain")).
  Proof.
    induction 1 as [m F|m p l B C IH]; intros fuel acc s L N.
    - destruct fuel as [|fuel]; cbn in L; [lia|]. cbn.
      destruct (String.eqb_spec (cl_name c m) (cl_name c s)) as [E|_];
        [exfalso; apply N; cbn; auto|]. rewrite (first_parent _ F).
      destruct fuel; reflexivity.
    - rewrite app_length in L. cbn in L. destruct fuel as [|fuel]; [lia|]. cbn.
      unfold names in N. rewrite map_app, in_app_iff in N.
      destruct (String.eqb_spec (cl_name c m) (cl_name c s)) as [E|_];
        [exfalso; apply N; cbn; auto|].
      rewrite (proj2 (parent_based _ _) B). apply IH; [lia|]. unfold names. tauto.
  Qed.
  Lemma since_latest l a s b : chain c l -> l = a ++ s :: b -> migrations_since c s = Ok b.
  Proof.
    intros H E. pose proof (chain_length _ H) as L. pose proof (chain_NoDup _ H) as ND.
    unfold migrations_since, migrations_since_fuel. unfold chain in H.
    destruct (cl_latest c) as [m|].
    - rewrite (since_loop_chain _ _ H _ _ a s b L E ND). cbn. now rewrite app_nil_r.
    - subst l. destruct a; discriminate.
  Qed.
  Lemma since_absent l s : chain c l -> ~ In (cl_name c s) (names c l) ->
    migrations_since c s = Err (MigrationError "Migration not in chain").
  Proof.
    intros H N. pose proof (chain_length _ H) as L.
    unfold migrations_since, migrations_since_fuel. unfold chain in H.
    destruct (cl_latest c) as [m|].
    - now rewrite (since_loop_absent _ _ H _ _ s L N).
    - destruct (cl_bound c); reflexivity.
  Qed.

  Lemma last_recorded_fun rows l o o' : NoDup (names c l) ->
    last_recorded c rows l o -> last_recorded c rows l o' -> o = o'.
  Proof.
    intros ND H H'. destruct o as [x|], o' as [y|]; cbn in *.
    - destruct H as (a & b & E & Hx & Hb), H' as (a' & b' & E' & Hy & Hb').
      f_equal. subst l. revert a' E'. induction a as [|z a IH]; intros a' E'.
      + destruct a' as [|z' a']; injection E' as E1 E2; [exact E1|].
        exfalso. apply (Hb y); [subst; apply in_elt|exact Hy].
      + destruct a' as [|z' a']; injection E' as E1 E2.
        * exfalso. subst. apply (Hb' x); [apply in_elt|exact Hx].
        * cbn in ND. inversion ND; subst. apply (IH ltac:(assumption) a' E2).
    - destruct H as (a & b & -> & Hx & _). destruct (H' x); [apply in_elt|exact Hx].
    - destruct H' as (a & b & -> & Hx & _). destruct (H y); [apply in_elt|exact Hx].
    - reflexivity.
  Qed.
  (** When exactly a prefix is recorded, the last recorded one is its last. *)
  Lemma last_recorded_prefix rows p q : NoDup (names c (p ++ q)) ->
    (forall n, In n rows <-> In n (names c p)) ->
    last_recorded c rows (p ++ q) (last (map Some p) None).
  Proof.
    intros ND R. destruct p as [|x p] using rev_ind.
    - cbn. intros x Hx Hin. apply R in Hin. destruct Hin.
    - clear IHp. rewrite map_app. cbn. rewrite last_last. exists p, q.
      split; [now rewrite <- app_assoc|]. split.
      + apply R. unfold names. rewrite map_app, in_app_iff. cbn. auto.
      + intros y Hy Hin. apply R in Hin. unfold names in ND. rewrite map_app in ND.
        apply NoDup_app_iff in ND as (_ & _ & ND). exact (ND _ Hin (in_map _ _ _ Hy)).
  Qed.
End Walk.

Section Run.
  Context {M S : Type} (c : Coll M) (exec : string -> DBS S -> outcome (DBS S)) (bk : string).

  Lemma existsb_eqb_In n l : existsb (String.eqb n) l = true <-> In n l.
  Proof.
    rewrite existsb_exists. split.
    - intros (x & Hx & E). apply String.eqb_eq in E. now subst.
    - intros H. exists n. split; [exact H|apply String.eqb_refl].
  Qed.
  Lemma insert_mig_spec n (d d' : DBS S) : insert_mig n d = Ok d' <-> recorded n d d'.
  Proof.
    unfold insert_mig, recorded. destruct (dbs_mig d) as [l|].
    - destruct (existsb (String.eqb n) l) eqn:E.
      + split; [discriminate|]. intros (l' & [= <-] & N & _). apply existsb_eqb_In in E. contradiction.
      + split.
        * intros [= <-]. exists l. split; [reflexivity|]. split; [|reflexivity].
          intros H. apply existsb_eqb_In in H. congruence.
        * intros (l' & [= <-] & _ & ->). reflexivity.
    - split; [discriminate|]. intros (l & H & _). discriminate.
  Qed.
  Lemma filter_remove n l : filter (fun y => negb (String.eqb y n)) l = remove string_dec n l.
  Proof.
    induction l as [|y l IH]; cbn; [reflexivity|]. rewrite IH.
    destruct (string_dec n y) as [->|N]; [now rewrite String.eqb_refl|].
    destruct (String.eqb_spec y n); [congruence|reflexivity].
  Qed.
  Lemma delete_mig_spec n (d d' : DBS S) : delete_mig n d = Ok d' <-> unrecorded n d d'.
  Proof.
    unfold delete_mig, unrecorded. destruct (dbs_mig d) as [l|].
    - rewrite filter_remove. split; [intros [= <-]; eauto|]. intros (l' & [= <-] & ->). reflexivity.
    - split; [discriminate|]. intros (l' & H & _). discriminate.
  Qed.

  Lemma seq_inv (R : M -> DBS S -> DBS S -> Prop) m l d d2 :
    seq R (m :: l) d d2 -> exists d1, R m d d1 /\ seq R l d1 d2.
  Proof. intros H. inversion H; subst. eauto. Qed.
  Lemma seq_nil_inv (R : M -> DBS S -> DBS S -> Prop) d d2 : seq R [] d d2 -> d2 = d.
  Proof. intros H. inversion H; reflexivity. Qed.

  (** A failed attempt leaves the database as it was; otherwise the whole effect is
      there. *)
  Lemma tx_effect (plan : nat -> fault) (o : outcome (option string)) (f : DBS S -> outcome (DBS S))
      (s s' : Conn S) (r : res unit) :
    scope (bind (begin_tx plan) (fun _ =>
           bind (lift (sql_or_unknown bk o)) (fun sql =>
           bind (in_tx plan (exec sql)) (fun _ =>
           bind (in_tx plan f) (fun _ => commit_tx plan))))) s = (r, s') ->
    cn_work s' = None /\
    ((cn_db s' = cn_db s /\ r <> Val tt) \/
     exists sql d1, o = Ok (Some sql) /\ exec sql (cn_db s) = Ok d1 /\ f d1 = Ok (cn_db s')).
  Proof.
    destruct s as [d w k]. unfold scope, bind, begin_tx, in_tx, commit_tx, call, lift, sql_or_unknown. cbn.
    destruct (plan k); cbn; try (intros [= <- <-]; cbn; split; [reflexivity|left; split; [reflexivity|discriminate]]).
    destruct o as [[sql|]|e|]; cbn;
      try (intros [= <- <-]; cbn; split; [reflexivity|left; split; [reflexivity|discriminate]]).
    destruct (plan (Datatypes.S k)); cbn;
      try (intros [= <- <-]; cbn; split; [reflexivity|left; split; [reflexivity|discriminate]]).
    - destruct (exec sql d) as [d1|e|] eqn:E1; cbn;
        try (intros [= <- <-]; cbn; split; [reflexivity|left; split; [reflexivity|discriminate]]).
      destruct (plan (Datatypes.S (Datatypes.S k))); cbn;
        try (intros [= <- <-]; cbn; split; [reflexivity|left; split; [reflexivity|discriminate]]).
      + destruct (f d1) as [d2|e|] eqn:E2; cbn;
          try (intros [= <- <-]; cbn; split; [reflexivity|left; split; [reflexivity|discriminate]]).
        destruct (plan (Datatypes.S (Datatypes.S (Datatypes.S k)))); cbn;
          intros [= <- <-]; cbn; (split; [reflexivity|]);
          first [left; split; [reflexivity|discriminate] | right; eauto].
      + destruct (f d1) as [d2|e|] eqn:E2; cbn;
          intros [= <- <-]; cbn; (split; [reflexivity|left; split; [reflexivity|discriminate]]).
    - destruct (exec sql d) as [d1|e|] eqn:E1; cbn;
        intros [= <- <-]; cbn; (split; [reflexivity|left; split; [reflexivity|discriminate]]).
  Qed.
  Lemma apply_effect plan m s r s' : apply exec bk plan c m s = (r, s') ->
    cn_work s' = None /\
    ((cn_db s' = cn_db s /\ r <> Val tt) \/ applies c exec bk m (cn_db s) (cn_db s')).
  Proof.
    intros H. apply tx_effect in H as (W & [H|(sql & d1 & E1 & E2 & E3)]); split; auto.
    right. exists sql, d1. apply insert_mig_spec in E3. auto.
  Qed.
  Lemma downgrade_effect plan m s r s' : downgrade exec bk plan c m s = (r, s') ->
    cn_work s' = None /\
    ((cn_db s' = cn_db s /\ r <> Val tt) \/
     exists sql d1, cl_down c m bk = Ok (Some sql) /\ exec sql (cn_db s) = Ok d1 /\
                    delete_mig (cl_name c m) d1 = Ok (cn_db s')).
  Proof. intros H. apply tx_effect in H. exact H. Qed.

  (** Without faults a migration whose effect exists is applied. *)
  Lemma tx_runs (o : outcome (option string)) (f : DBS S -> outcome (DBS S)) s sql d1 d2 :
    o = Ok (Some sql) -> exec sql (cn_db s) = Ok d1 -> f d1 = Ok d2 ->
    exists s', scope (bind (begin_tx no_fault) (fun _ =>
           bind (lift (sql_or_unknown bk o)) (fun sql =>
           bind (in_tx no_fault (exec sql)) (fun _ =>
           bind (in_tx no_fault f) (fun _ => commit_tx no_fault))))) s = (Val tt, s') /\ cn_db s' = d2.
  Proof.
    intros E1 E2 E3. destruct s as [d w k]. cbn in *. subst o.
    unfold scope, bind, begin_tx, in_tx, commit_tx, call, lift, sql_or_unknown. cbn.
    rewrite E2. cbn. rewrite E3. cbn. eexists. split; reflexivity.
  Qed.

  Lemma apply_each_effect plan l : forall s r s', apply_each exec bk plan c l s = (r, s') ->
    exists k, seq (applies c exec bk) (firstn k l) (cn_db s) (cn_db s') /\
              (r = Val tt -> k = length l) /\ k <= length l.
  Proof.
    induction l as [|m l IH]; intros s r s' H; cbn in H.
    - injection H as <- <-. exists 0. repeat split; constructor.
    - unfold bind in H. destruct (apply exec bk plan c m s) as [r1 s1] eqn:E.
      apply apply_effect in E as (_ & [[E N]|E]).
      + destruct r1 as [[]|e|]; [congruence| |];
          injection H as <- <-; exists 0; rewrite E; (split; [constructor|split; [discriminate|cbn; lia]]).
      + destruct r1 as [[]|e|].
        * apply IH in H as (k & Q & R & L). exists (Datatypes.S k). split; [econstructor; eauto|].
          split; [intros X; cbn; f_equal; auto|cbn; lia].
        * injection H as <- <-. exists 1. split; [econstructor; [eassumption|constructor]|].
          split; [discriminate|cbn; lia].
        * injection H as <- <-. exists 1. split; [econstructor; [eassumption|constructor]|].
          split; [discriminate|cbn; lia].
  Qed.
  Lemma apply_each_runs l : forall s d', seq (applies c exec bk) l (cn_db s) d' ->
    exists s', apply_each exec bk no_fault c l s = (Val tt, s') /\ cn_db s' = d'.
  Proof.
    induction l as [|m l IH]; intros s d' H.
    - apply seq_nil_inv in H. subst. exists s. split; reflexivity.
    - apply seq_inv in H as (d1 & (sql & dd & E1 & E2 & E3) & H5). apply insert_mig_spec in E3.
      destruct (tx_runs _ _ s _ _ _ E1 E2 E3) as (s1 & R1 & D1).
      cbn. unfold bind at 1. unfold apply. rewrite R1. subst d1.
      destruct (IH s1 _ H5) as (s2 & R2 & D2). exists s2. auto.
  Qed.

  (** * Reading the bookkeeping table *)
  Definition rows (d : DBS S) : list string := match dbs_mig d with Some l => l | None => [] end.
  Lemma last_applied_effect plan l s r s' : coherent c -> chain c l ->
    last_applied plan c s = (r, s') ->
    cn_db s' = cn_db s /\
    match r with Val o => last_recorded c (rows (cn_db s)) l o | Fail _ | Stop => True end.
  Proof.
    intros CO CH. destruct (last_loop_latest c CO (rows (cn_db s)) l CH) as (o & E & R).
    destruct s as [d w k]. unfold last_applied, bind, has_mig_table, query_mig, call, ret, lift. cbn.
    cbn in E, R. unfold rows in *.
    destruct (plan k); cbn; try (intros [= <- <-]; cbn; auto; fail).
    destruct (dbs_mig d) as [ns|] eqn:Em; cbn.
    - destruct (plan (Datatypes.S k)); cbn; try (intros [= <- <-]; cbn; auto; fail).
      + rewrite Em, E. intros [= <- <-]. cbn. auto.
      + rewrite Em. intros [= <- <-]. cbn. auto.
    - intros [= <- <-]. cbn. split; [reflexivity|]. intros x _ [].
  Qed.
  Lemma last_applied_runs l s : coherent c -> chain c l ->
    exists o s', last_applied no_fault c s = (Val o, s') /\ cn_db s' = cn_db s /\
                 last_recorded c (rows (cn_db s)) l o.
  Proof.
    intros CO CH. destruct (last_loop_latest c CO (rows (cn_db s)) l CH) as (o & E & R).
    destruct s as [d w k]. unfold last_applied, bind, has_mig_table, query_mig, call, ret, lift, no_fault. cbn.
    cbn in E, R. unfold rows in *. destruct (dbs_mig d) as [ns|] eqn:Em; cbn.
    - rewrite Em, E. eexists _, _. split; [reflexivity|]. auto.
    - eexists None, _. split; [reflexivity|]. split; [reflexivity|]. intros x _ [].
  Qed.

  (** The pending migrations: those after the last recorded one. *)
  Definition pending_of (l : list M) (d : DBS S) (q : list M) : Prop :=
    exists p, l = p ++ q /\ (forall x, In x q -> ~ In (cl_name c x) (rows d)) /\
              (forall x p', p = p' ++ [x] -> In (cl_name c x) (rows d)).
  Lemma pending_fun l d q q' : NoDup (names c l) -> pending_of l d q -> pending_of l d q' -> q = q'.
  Proof.
    intros ND (p & E & N & L) (p' & E' & N' & L'). subst l. revert p' E' L'.
    induction p as [|x p IH]; intros p' E' L'.
    - destruct p' as [|y p' _] using rev_ind; [exact E'|]. exfalso. cbn in E'. subst q.
      apply (N y); [rewrite !in_app_iff; cbn; auto|]. exact (L' _ _ eq_refl).
    - destruct p' as [|y p'].
      + exfalso. clear IH. cbn in E'. destruct p as [|z p _] using rev_ind.
        * apply (N' x); [rewrite <- E'; cbn; auto|]. exact (L x [] eq_refl).
        * apply (N' z); [rewrite <- E'; right; rewrite !in_app_iff; cbn; auto|]. exact (L z (x :: p) eq_refl).
      + cbn in E'. injection E' as <- E'. cbn in ND. inversion ND; subst.
        apply (IH ltac:(assumption)) with (p' := p'); auto.
        * intros z p0 ->. exact (L z (x :: p0) eq_refl).
        * intros z p0 ->. exact (L' z (x :: p0) eq_refl).
  Qed.
  Lemma recorded_pending l d o : last_recorded c (rows d) l o ->
    exists q, pending_of l d q /\
      (o = None -> q = l) /\ (forall m, o = Some m -> exists a, l = a ++ m :: q).
  Proof.
    destruct o as [m|]; cbn.
    - intros (a & b & -> & Hm & Hb). exists b. split.
      + exists (a ++ [m]). split; [now rewrite <- app_assoc|]. split; [exact Hb|].
        intros x p' E. apply app_inj_tail in E as [_ <-]. exact Hm.
      + split; [discriminate|]. intros ? [= <-]. eauto.
    - intros N. exists l. split; [|split; [auto|discriminate]].
      exists []. split; [reflexivity|]. split; [exact N|]. intros x p' E. destruct p'; discriminate.
  Qed.
  Lemma unapplied_effect plan l s r s' : coherent c -> chain c l ->
    unapplied plan c s = (r, s') ->
    cn_db s' = cn_db s /\
    match r with Val q => pending_of l (cn_db s) q | Fail _ | Stop => True end.
  Proof.
    intros CO CH. unfold unapplied, bind.
    destruct (last_applied plan c s) as [r1 s1] eqn:E.
    apply (last_applied_effect _ _ _ _ _ CO CH) in E as (D & R).
    destruct r1 as [o|e|]; try (intros [= <- <-]; auto; fail).
    destruct (recorded_pending _ _ _ R) as (q & P & P0 & P1).
    destruct o as [m|]; unfold lift.
    - destruct (P1 m eq_refl) as (a & El). rewrite (since_latest c CO l a m q CH El).
      intros [= <- <-]. auto.
    - rewrite (chain_all c CO l CH). intros [= <- <-]. rewrite P0 in P by reflexivity. auto.
  Qed.
  Lemma unapplied_runs l s : coherent c -> chain c l ->
    exists q s', unapplied no_fault c s = (Val q, s') /\ cn_db s' = cn_db s /\ pending_of l (cn_db s) q.
  Proof.
    intros CO CH. destruct (last_applied_runs l s CO CH) as (o & s1 & E & D & R).
    destruct (recorded_pending _ _ _ R) as (q & P & P0 & P1).
    exists q, s1. unfold unapplied, bind. rewrite E. split; [|auto].
    destruct o as [m|]; unfold lift.
    - destruct (P1 m eq_refl) as (a & El). now rewrite (since_latest c CO l a m q CH El).
    - rewrite (chain_all c CO l CH). now rewrite P0.
  Qed.
  Lemma migrate_effect plan l s r s' q : coherent c -> chain c l -> pending_of l (cn_db s) q ->
    migrate exec bk plan c s = (r, s') ->
    exists k, seq (applies c exec bk) (firstn k q) (cn_db s) (cn_db s') /\
              (r = Val tt -> k = length q) /\ k <= length q.
  Proof.
    intros CO CH P. unfold migrate, bind at 1. destruct (unapplied plan c s) as [r1 s1] eqn:E.
    apply (unapplied_effect _ _ _ _ _ CO CH) in E as (D & R).
    destruct r1 as [q'|e|].
    - assert (q' = q) by (eapply pending_fun; eauto using chain_NoDup). subst q'.
      intros H. apply apply_each_effect in H. now rewrite D in H.
    - intros [= <- <-]. exists 0. rewrite D. split; [constructor|]. split; [discriminate|lia].
    - intros [= <- <-]. exists 0. rewrite D. split; [constructor|]. split; [discriminate|lia].
  Qed.
  Lemma migrate_runs l s q d' : coherent c -> chain c l -> pending_of l (cn_db s) q ->
    seq (applies c exec bk) q (cn_db s) d' ->
    exists s', migrate exec bk no_fault c s = (Val tt, s') /\ cn_db s' = d'.
  Proof.
    intros CO CH P Q. destruct (unapplied_runs l s CO CH) as (q' & s1 & E & D & P').
    assert (q' = q) by (eapply pending_fun; eauto using chain_NoDup). subst q'.
    unfold migrate, bind at 1. rewrite E. apply apply_each_runs. now rewrite D.
  Qed.

  (** * Bookkeeping of a recorded prefix *)
  Lemma records_pending l d p q : coherent c -> chain c l -> l = p ++ q -> records c d p -> pending_of l d q.
  Proof.
    intros CO CH E R. pose proof (chain_NoDup c CO l CH) as ND. subst l.
    unfold names in ND. rewrite map_app in ND. apply NoDup_app_iff in ND as (_ & _ & ND).
    exists p. split; [reflexivity|]. unfold records in R. unfold rows.
    destruct (dbs_mig d) as [ns|].
    - subst ns. split.
      + intros x Hx Hin. exact (ND _ Hin (in_map _ _ _ Hx)).
      + intros x p' ->. unfold names. rewrite map_app, in_app_iff. cbn. auto.
    - subst p. split; [intros x _ []|]. intros x p' E. destruct p'; discriminate.
  Qed.
  Lemma keep_incl l l' : (forall x, In x l' -> In x l) -> scripts_keep_records c exec bk l -> scripts_keep_records c exec bk l'.
  Proof. intros I K m sql Hm. exact (K m sql (I m Hm)). Qed.
  Lemma applies_records m d d' p : scripts_keep_records c exec bk [m] -> records c d p ->
    applies c exec bk m d d' -> records c d' (p ++ [m]).
  Proof.
    intros K R (sql & d1 & E1 & E2 & l & Em & N & ->). unfold records in *. cbn.
    unfold names. rewrite map_app. cbn. f_equal.
    destruct (K m sql (or_introl eq_refl) (or_introl E1) _ _ E2) as [H|[H1 H2]].
    - rewrite <- H, Em in R. exact R.
    - rewrite H1 in R. subst p. rewrite H2 in Em. injection Em as <-. reflexivity.
  Qed.
  Lemma seq_records l : forall d d' p, scripts_keep_records c exec bk l -> records c d p ->
    seq (applies c exec bk) l d d' -> records c d' (p ++ l).
  Proof.
    induction l as [|m l IH]; intros d d' p K R H.
    - apply seq_nil_inv in H. subst. now rewrite app_nil_r.
    - apply seq_inv in H as (d1 & H1 & H2).
      rewrite <- (app_nil_l l), app_comm_cons, app_assoc. eapply IH; [|eapply applies_records; [|exact R|exact H1]|exact H2].
      + intros x sql Hx. apply K. right. exact Hx.
      + intros x sql [<-|[]]. apply K. left. reflexivity.
  Qed.
  Lemma applies_fun m d d1 d2 : applies c exec bk m d d1 -> applies c exec bk m d d2 -> d1 = d2.
  Proof.
    intros (s & x & A & B & R) (s' & x' & A' & B' & R').
    apply insert_mig_spec in R. apply insert_mig_spec in R'. congruence.
  Qed.
  Lemma seq_fun (R : M -> DBS S -> DBS S -> Prop) : (forall m d d1 d2, R m d d1 -> R m d d2 -> d1 = d2) ->
    forall l d d1 d2, seq R l d d1 -> seq R l d d2 -> d1 = d2.
  Proof.
    intros F. induction l as [|m l IH]; intros d d1 d2 H1 H2.
    - apply seq_nil_inv in H1. apply seq_nil_inv in H2. congruence.
    - apply seq_inv in H1 as (x & A & B). apply seq_inv in H2 as (y & A' & B').
      assert (x = y) by eauto. subst. eauto.
  Qed.
  Lemma seq_app (R : M -> DBS S -> DBS S -> Prop) l1 : forall l2 d d',
    seq R (l1 ++ l2) d d' <-> exists d1, seq R l1 d d1 /\ seq R l2 d1 d'.
  Proof.
    induction l1 as [|m l1 IH]; intros l2 d d'; cbn.
    - split.
      + intros H. exists d. split; [constructor|exact H].
      + intros (d1 & H1 & H2). inversion H1; subst. exact H2.
    - split.
      + intros H. apply seq_inv in H as (d1 & H3 & H5). apply IH in H5 as (dd & A & B). exists dd.
        split; [econstructor; eauto|exact B].
      + intros (d1 & H1 & H2). apply seq_inv in H1 as (d2 & A & B).
        econstructor; [eassumption|]. apply IH. eauto.
  Qed.

  Lemma migrate_many l plans : forall p q d, coherent c -> chain c l -> scripts_keep_records c exec bk l ->
    l = p ++ q -> records c d p ->
    exists k, k <= length q /\ seq (applies c exec bk) (firstn k q) d (migrate_runs_with c exec bk plans d) /\
              records c (migrate_runs_with c exec bk plans d) (p ++ firstn k q).
  Proof.
    induction plans as [|fp plans IH]; intros p q d CO CH K E R; cbn.
    - exists 0. split; [lia|]. split; [constructor|]. cbn. now rewrite app_nil_r.
    - destruct (migrate exec bk fp c (conn_on d)) as [r s'] eqn:EM. cbn.
      eapply migrate_effect in EM; eauto; [|eapply records_pending; eauto].
      destruct EM as (k & Q & _ & L). cbn in Q.
      assert (R' : records c (cn_db s') (p ++ firstn k q)) by (eapply seq_records; [|exact R|exact Q]; intros x sql Hx; apply K; subst l; apply in_or_app; right; eapply In_firstn; exact Hx).
      destruct (IH (p ++ firstn k q) (skipn k q) (cn_db s') CO CH K) as (k' & L' & Q' & R'').
      { now rewrite <- app_assoc, firstn_skipn. }
      { exact R'. }
      exists (k + k'). rewrite skipn_length in L'. split; [lia|].
      assert (EF : firstn (k + k') q = firstn k q ++ firstn k' (skipn k q)).
      { clear - L. revert q L. induction k as [|k IHk]; intros q L; cbn; [reflexivity|].
        destruct q as [|x q]; cbn in *; [lia|]. rewrite IHk by lia. reflexivity. }
      rewrite EF. split; [apply seq_app; eauto|]. now rewrite app_assoc.
  Qed.

  (** However many runs were interrupted, one that is not brings the database where an
      uninterrupted run would have brought it. *)
  Lemma migrate_resumes l plans p q d d' : coherent c -> chain c l -> scripts_keep_records c exec bk l ->
    l = p ++ q -> records c d p -> seq (applies c exec bk) q d d' ->
    exists s', migrate exec bk no_fault c (conn_on (migrate_runs_with c exec bk plans d)) = (Val tt, s') /\ cn_db s' = d'.
  Proof.
    intros CO CH K E R Q. destruct (migrate_many l plans p q d CO CH K E R) as (k & L & Q1 & R1).
    pose proof Q as Q2. rewrite <- (firstn_skipn k q) in Q2. apply seq_app in Q2 as (d1 & A & B).
    assert (d1 = migrate_runs_with c exec bk plans d).
    { eapply seq_fun; [|exact A|exact Q1]. intros m x y z. apply applies_fun. }
    subst d1. apply (migrate_runs l _ (skipn k q)); [exact CO|exact CH| |exact B].
    apply (records_pending l _ (p ++ firstn k q)); [exact CO|exact CH| |exact R1].
    now rewrite <- app_assoc, firstn_skipn.
  Qed.
  Lemma migrate_done plan l d s' r : coherent c -> chain c l -> records c d l ->
    migrate exec bk plan c (conn_on d) = (r, s') -> cn_db s' = d.
  Proof.
    intros CO CH R H. eapply migrate_effect in H as (k & Q & _ & _); [|exact CO|exact CH|].
    2: { apply (records_pending l _ l []); auto. now rewrite app_nil_r. }
    cbn in Q. rewrite firstn_nil in Q. now apply seq_nil_inv in Q.
  Qed.
  Lemma migrate_done_ok l d : coherent c -> chain c l -> records c d l ->
    exists s', migrate exec bk no_fault c (conn_on d) = (Val tt, s') /\ cn_db s' = d.
  Proof.
    intros CO CH R. apply (migrate_runs l _ []); auto; [|constructor].
    apply (records_pending l _ l []); auto. now rewrite app_nil_r.
  Qed.

  (** * Rolling back *)
  Definition downs (m : M) (d d' : DBS S) : Prop :=
    exists sql d1, cl_down c m bk = Ok (Some sql) /\ exec sql d = Ok d1 /\
                   delete_mig (cl_name c m) d1 = Ok d'.
  Lemma downs_downgrades m d d' : downs m d d' <-> downgrades c exec bk m d d'.
  Proof. split; intros (sql & d1 & A & B & D); exists sql, d1; apply delete_mig_spec in D; auto. Qed.
  Lemma seq_downs l : forall d d', seq downs l d d' <-> seq (downgrades c exec bk) l d d'.
  Proof.
    induction l as [|m l IH]; intros d d'; split; intros H.
    - apply seq_nil_inv in H. subst. constructor.
    - apply seq_nil_inv in H. subst. constructor.
    - apply seq_inv in H as (d1 & A & B). econstructor; [apply downs_downgrades, A|apply IH, B].
    - apply seq_inv in H as (d1 & A & B). econstructor; [apply downs_downgrades, A|apply IH, B].
  Qed.
  Lemma downs_records m d d' p : coherent c -> NoDup (names c (p ++ [m])) ->
    scripts_keep_records c exec bk [m] -> records c d (p ++ [m]) -> downs m d d' -> records c d' p.
  Proof.
    intros CO ND K R (sql & d1 & E1 & E2 & E3). unfold records in *. unfold delete_mig in E3.
    assert (R1 : dbs_mig d1 = Some (names c (p ++ [m]))).
    { destruct (K m sql (or_introl eq_refl) (or_intror E1) _ _ E2) as [H|[H1 H2]].
      - rewrite H. destruct (dbs_mig d); [now subst|]. destruct p; discriminate.
      - rewrite H1 in R. destruct p; discriminate. }
    rewrite R1 in E3. injection E3 as <-. cbn. unfold names in *.
    rewrite map_app in *. cbn [map] in *. rewrite filter_app. cbn. rewrite String.eqb_refl. cbn.
    rewrite app_nil_r. apply filter_true. intros x Hx. apply negb_true_iff, String.eqb_neq.
    intros ->. apply NoDup_app_iff in ND as (_ & _ & ND). apply (ND _ Hx). cbn. auto.
  Qed.
  Lemma unmigrate_loop_effect plan m l : coherent c -> chain_to c m (l ++ [m]) ->
    forall fuel s r s', length l <= fuel -> unmigrate_loop exec bk plan c fuel m s = (r, s') ->
    exists k, k <= length l /\ seq downs (firstn k (rev l)) (cn_db s) (cn_db s') /\
              (r = Val tt -> k = length l).
  Proof.
    intros CO. remember (l ++ [m]) as lm eqn:El. intros H. revert l El.
    induction H as [m F|m p l' B C IH]; intros l El fuel s r s' L.
    - destruct l as [|x l]; [|destruct l; discriminate]. destruct fuel; cbn;
        rewrite F; intros [= <- <-]; exists 0; (split; [lia|]; split; [constructor|auto]).
    - apply app_inj_tail in El as [-> _]. destruct (chain_to_last c _ _ C) as [a ->].
      rewrite app_length in L. cbn in L. destruct fuel as [|fuel]; [lia|]. cbn.
      destruct B as (n & E & G). rewrite E, G. unfold bind.
      rewrite rev_app_distr. cbn [rev app]. rewrite app_length. cbn [length].
      destruct (downgrade exec bk plan c p s) as [r1 s1] eqn:ED.
      apply downgrade_effect in ED as (_ & [[D N]|D]).
      + destruct r1 as [[]|e|]; [congruence| |];
          intros [= <- <-]; exists 0; rewrite D; (split; [lia|]; split; [constructor|discriminate]).
      + destruct r1 as [[]|e|].
        * intros H. apply (IH a eq_refl) in H as (k & Lk & Q & R); [|lia].
          exists (Datatypes.S k). split; [lia|]. split; [econstructor; eauto; exact D|].
          intros X. rewrite R by exact X. lia.
        * intros [= <- <-]. exists 1. split; [lia|]. split; [econstructor; [exact D|constructor]|discriminate].
        * intros [= <- <-]. exists 1. split; [lia|]. split; [econstructor; [exact D|constructor]|discriminate].
  Qed.
  Lemma chain_prefix_to l a x b : chain c l -> l = a ++ x :: b -> chain_to c x (a ++ [x]).
  Proof.
    unfold chain. destruct (cl_latest c).
    - intros H E. eapply chain_to_prefix; eauto.
    - intros -> E. destruct a; discriminate.
  Qed.
  Lemma unmigrate_effect plan l p q s r s' : coherent c -> chain c l -> l = p ++ q ->
    records c (cn_db s) p -> unmigrate exec bk plan c s = (r, s') ->
    exists k, k <= length p /\ seq downs (firstn k (rev p)) (cn_db s) (cn_db s') /\
              (r = Val tt -> k = length p).
  Proof.
    intros CO CH E R. unfold unmigrate, bind at 1. pose proof (chain_NoDup c CO l CH) as ND.
    destruct (last_applied plan c s) as [r1 s1] eqn:EL.
    apply (last_applied_effect _ _ _ _ _ CO CH) in EL as (D & LR).
    destruct r1 as [o|e|].
    2,3: intros [= <- <-]; exists 0; rewrite D; (split; [lia|]; split; [constructor|discriminate]).
    assert (Eo : o = last (map Some p) None).
    { subst l. eapply last_recorded_fun; [exact ND|exact LR|]. apply last_recorded_prefix; [exact ND|].
      intros n. unfold records in R. unfold rows. destruct (dbs_mig (cn_db s)); subst; reflexivity. }
    destruct p as [|m p _] using rev_ind.
    - subst o. cbn. intros [= <- <-]. exists 0. rewrite D. split; [lia|]. split; [constructor|auto].
    - rewrite map_app in Eo. cbn in Eo. rewrite last_last in Eo. subst o.
      rewrite rev_app_distr. cbn [rev app]. rewrite app_length. cbn [length]. unfold bind.
      destruct (downgrade exec bk plan c m s1) as [r2 s2] eqn:ED.
      apply downgrade_effect in ED as (_ & [[D2 N]|D2]).
      + destruct r2 as [[]|e|]; [congruence| |];
          intros [= <- <-]; exists 0; rewrite D2, D; (split; [lia|]; split; [constructor|discriminate]).
      + rewrite D in D2. destruct r2 as [[]|e|].
        * assert (C2 : chain_to c m (p ++ [m])).
          { apply (chain_prefix_to l p m q CH). rewrite E, <- app_assoc. reflexivity. }
          intros H. apply (unmigrate_loop_effect plan m p CO C2) in H as (k & Lk & Q & Rk).
          -- exists (Datatypes.S k). split; [lia|]. split; [econstructor; eauto; exact D2|].
             intros X. rewrite Rk by exact X. lia.
          -- pose proof (chain_length c CO l CH) as LL. subst l. rewrite !app_length in LL. cbn in LL. lia.
        * intros [= <- <-]. exists 1. split; [lia|]. split; [econstructor; [exact D2|constructor]|discriminate].
        * intros [= <- <-]. exists 1. split; [lia|]. split; [econstructor; [exact D2|constructor]|discriminate].
  Qed.
  Lemma seq_downs_records p : forall k d d', coherent c -> NoDup (names c p) ->
    scripts_keep_records c exec bk p -> records c d p -> k <= length p ->
    seq downs (firstn k (rev p)) d d' -> records c d' (firstn (length p - k) p).
  Proof.
    induction p as [|m p IH] using rev_ind; intros k d d' CO ND K R L H.
    - destruct k; cbn in *; inversion H; subst; exact R.
    - rewrite rev_app_distr in H. cbn [rev app] in H. rewrite app_length in *. cbn [length] in *.
      destruct k as [|k].
      + cbn in H. inversion H; subst. rewrite Nat.sub_0_r.
        assert (length p + 1 = length (p ++ [m])) as -> by (rewrite app_length; reflexivity).
        now rewrite firstn_all.
      + cbn in H. apply seq_inv in H as (d1 & H3 & H4).
        assert (R1 : records c d1 p) by (eapply downs_records; [exact CO|exact ND| |exact R|exact H3]; intros x sql [<-|[]]; apply K; apply in_or_app; right; left; reflexivity).
        replace (length p + 1 - Datatypes.S k) with (length p - k) by lia.
        rewrite firstn_app. replace (length p - k - length p) with 0 by lia. cbn. rewrite app_nil_r.
        eapply IH; eauto; [| |lia].
        * unfold names in *. rewrite map_app in ND. now apply NoDup_app_iff in ND.
        * intros x sql Hx. apply K. apply in_or_app. left. exact Hx.
  Qed.
  (** Without faults, a possible roll back happens. *)
  Lemma downgrade_runs m s d' : downs m (cn_db s) d' ->
    exists s', downgrade exec bk no_fault c m s = (Val tt, s') /\ cn_db s' = d'.
  Proof. intros (sql & d1 & A & B & D). exact (tx_runs _ _ s _ _ _ A B D). Qed.
  Lemma unmigrate_loop_runs m l : coherent c -> chain_to c m (l ++ [m]) ->
    forall fuel s d', length l <= fuel -> seq downs (rev l) (cn_db s) d' ->
    exists s', unmigrate_loop exec bk no_fault c fuel m s = (Val tt, s') /\ cn_db s' = d'.
  Proof.
    intros CO. remember (l ++ [m]) as lm eqn:El. intros H. revert l El.
    induction H as [m F|m p l' B C IH]; intros l El fuel s d' L Q.
    - destruct l as [|x l]; [|destruct l; discriminate]. cbn in Q. inversion Q; subst.
      exists s. destruct fuel; cbn; rewrite F; auto.
    - apply app_inj_tail in El as [-> _]. destruct (chain_to_last c _ _ C) as [a ->].
      rewrite app_length in L. cbn in L. destruct fuel as [|fuel]; [lia|]. cbn.
      destruct B as (n & E & G). rewrite E, G. unfold bind.
      rewrite rev_app_distr in Q. cbn [rev app] in Q. apply seq_inv in Q as (d1 & H2 & Q).
      destruct (downgrade_runs _ _ _ H2) as (s1 & -> & D1). subst d1.
      apply (IH a eq_refl); [lia|assumption].
  Qed.
  Lemma unmigrate_runs l p q s d' : coherent c -> chain c l -> l = p ++ q ->
    records c (cn_db s) p -> seq downs (rev p) (cn_db s) d' ->
    exists s', unmigrate exec bk no_fault c s = (Val tt, s') /\ cn_db s' = d'.
  Proof.
    intros CO CH E R Q. pose proof (chain_NoDup c CO l CH) as ND.
    destruct (last_applied_runs l s CO CH) as (o & s1 & EL & D & LR).
    assert (Eo : o = last (map Some p) None).
    { subst l. eapply last_recorded_fun; [exact ND|exact LR|]. apply last_recorded_prefix; [exact ND|].
      intros n. unfold records in R. unfold rows. destruct (dbs_mig (cn_db s)); subst; reflexivity. }
    unfold unmigrate, bind at 1. rewrite EL.
    destruct p as [|m p _] using rev_ind.
    - subst o. cbn in *. inversion Q; subst. exists s1. auto.
    - rewrite map_app in Eo. cbn in Eo. rewrite last_last in Eo. subst o.
      rewrite rev_app_distr in Q. cbn [rev app] in Q. apply seq_inv in Q as (d1 & H2 & Q). subst l.
      rewrite <- D in H2. destruct (downgrade_runs _ _ _ H2) as (s2 & E2 & D2). unfold bind. rewrite E2.
      subst d1. apply unmigrate_loop_runs with (l := p); auto.
      + apply (chain_prefix_to _ p m q CH). rewrite <- app_assoc. reflexivity.
      + pose proof (chain_length c CO _ CH) as LL. rewrite !app_length in LL. cbn in LL. lia.
  Qed.
  (** If every down script undoes its up script, downgrading the end of an applied
      sequence gives the database of the shorter sequence. *)
  Lemma seq_downs_back p : forall k d0 d d',
    (forall m a b, In m p -> applies c exec bk m a b -> forall b', downs m b b' -> b' = a) ->
    seq (applies c exec bk) p d0 d -> k <= length p -> seq downs (firstn k (rev p)) d d' ->
    seq (applies c exec bk) (firstn (length p - k) p) d0 d'.
  Proof.
    induction p as [|m p IH] using rev_ind; intros k d0 d d' UD A L H.
    - destruct k; cbn in *; inversion H; subst; exact A.
    - rewrite rev_app_distr in H. cbn [rev app] in H. rewrite app_length in *. cbn [length] in *.
      destruct k as [|k].
      + cbn in H. inversion H; subst. rewrite Nat.sub_0_r.
        assert (length p + 1 = length (p ++ [m])) as -> by (rewrite app_length; reflexivity).
        now rewrite firstn_all.
      + cbn in H. apply seq_inv in H as (d1 & H3 & H4). apply seq_app in A as (da & A1 & A2).
        apply seq_inv in A2 as (db & A2 & A3). apply seq_nil_inv in A3. subst db.
        assert (d1 = da) by (eapply UD; eauto; apply in_or_app; cbn; auto). subst da.
        replace (length p + 1 - Datatypes.S k) with (length p - k) by lia.
        rewrite firstn_app. replace (length p - k - length p) with 0 by lia. cbn. rewrite app_nil_r.
        eapply IH; eauto; [|lia]. intros x a b Hx. apply UD. apply in_or_app. auto.
  Qed.
  Lemma firstn_cons_sub f (r : list M) k : k <= length r ->
    firstn (length (f :: r) - k) (f :: r) = f :: firstn (length r - k) r.
  Proof. intros L. cbn [length]. replace (Datatypes.S (length r) - k) with (Datatypes.S (length r - k)) by lia. reflexivity. Qed.
  Lemma seq_downs_back_first f r k d0 d d' : undoes_first c exec bk f -> (forall m, In m r -> undoes c exec bk m) ->
    seq (applies c exec bk) (f :: r) d0 d -> k <= length (f :: r) -> seq downs (firstn k (rev (f :: r))) d d' ->
    (k <= length r /\ seq (applies c exec bk) (firstn (length (f :: r) - k) (f :: r)) d0 d') \/
    (k = length (f :: r) /\ dbs_rest d' = dbs_rest d0).
  Proof.
    intros UF UR A L H. apply seq_inv in A as (d1 & A1 & A2).
    assert (LE : k <= length r \/ k = length (f :: r)) by (cbn in *; lia). destruct LE as [LE| ->].
    - left. split; [exact LE|]. rewrite firstn_cons_sub by exact LE. econstructor; [exact A1|].
      eapply seq_downs_back; [|exact A2|exact LE|].
      + intros m a b Hm Ha b' Hb. apply downs_downgrades in Hb; exact (UR m Hm a b b' Ha Hb).
      + cbn [rev] in H. rewrite firstn_app, rev_length in H.
        replace (k - length r) with 0 in H by lia. cbn [firstn] in H. now rewrite app_nil_r in H.
    - right. split; [reflexivity|]. rewrite firstn_all2 in H by (rewrite rev_length; lia).
      cbn [rev] in H. apply seq_app in H as (d2 & H1 & H2).
      assert (Q : seq (applies c exec bk) (firstn (length r - length r) r) d1 d2).
      { eapply seq_downs_back; [|exact A2|apply Nat.le_refl|].
        - intros m a b Hm Ha b' Hb. apply downs_downgrades in Hb; exact (UR m Hm a b b' Ha Hb).
        - rewrite firstn_all2 by (rewrite rev_length; lia). exact H1. }
      rewrite Nat.sub_diag in Q. apply seq_nil_inv in Q. subst d2.
      apply seq_inv in H2 as (d2 & H2 & H3). apply seq_nil_inv in H3. subst d2.
      apply downs_downgrades in H2. exact (UF _ _ _ A1 H2).
  Qed.
End Run.

(** * What a listing is when some link is broken *)
Section Listing.
  Context {M : Type} (c : Coll M).
  Lemma walk_listed o l : walk c o l (Ok tt) ->
    linked c (rev l) /\ (match o with None => l = [] | Some m => exists r, l = m :: r end) /\
    (forall f r, rev l = f :: r -> is_first c f \/ exists n, cl_from c f = Ok (Some n) /\ cl_get c n = None).
  Proof.
    remember (Ok tt) as w eqn:Ew. induction 1 as [|m p l w E W IH|m e E|m E]; try discriminate.
    - split; [|split; [reflexivity|discriminate]]. intros a x y b H. destruct a; discriminate.
    - destruct (IH Ew) as (L & P & F). split; [|split; [eauto|]].
      + intros a x y b H. cbn in H. destruct b as [|z b _] using rev_ind.
        * change [x; y] with ([x] ++ [y]) in H. rewrite app_assoc in H. apply app_inj_tail in H as [H1 H2]. subst y.
          destruct p as [p|]; [|subst l; cbn in H1; destruct a; discriminate].
          destruct P as [r ->]. cbn in H1. apply app_inj_tail in H1 as [H1 H2]. subst p. now apply parent_based.
        * rewrite !app_comm_cons, app_assoc in H. apply app_inj_tail in H as [H1 H2]. subst. exact (L a x y b H1).
      + intros f r H. cbn in H. destruct (rev l) as [|g r'] eqn:El.
        * injection H as <- <-. destruct p as [p|].
          { destruct P as [r ->]. cbn in El. destruct (rev r); discriminate. }
          unfold parent in E. destruct (cl_from c m) as [[n|]| |] eqn:Ef; cbn in E; try discriminate.
          { right. exists n. split; [reflexivity|congruence]. }
          { left. exact Ef. }
        * injection H as <- <-. exact (F g r' eq_refl).
  Qed.
End Listing.
