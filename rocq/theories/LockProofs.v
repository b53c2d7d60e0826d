(** Proofs about processes working on the current schema at the same time. *)
From Coq Require Import Permutation.
From Verif Require Import Base SqlVal Adb Lock LockSpec.

Lemma nodup_front (a b : list nat) : NoDup (a ++ b) -> NoDup a.
Proof.
  induction a as [|x a IH]; intros H; [constructor|]. cbn in H. apply NoDup_cons_iff in H as [H1 H2]. constructor; [|auto].
  intros X. apply H1. apply in_or_app. now left.
Qed.
Section Inv.
Variable n : nat.
Variable ls : list (option string) -> list (option string).
Hypothesis PL : forall l, Permutation (ls l) l.
Variable jobs : nat -> job.
Hypothesis NC : forall p, jobs p <> CleanUp.
Variables (init : typemap) (T : smap string ATable).
Hypothesis ST : msorted T.
(** What had been recorded at some earlier moment, and who started only later. *)
Variables (base : list nat) (late : nat -> Prop).

Notation tm order := (types_after jobs order init).
Definition killed (st : nat -> pc) : Prop := exists q, st q = Killed.
Definition tables_busy : Prop := exists q t, q < n /\ jobs q = AddTable t.

Definition result (K : Prop) (order : list nat) (p : nat) (r : outcome answer) : Prop :=
  match jobs p with
  | AddType _ _ => (r = Ok Written /\ In p order) \/ (r = Err SerdeJson /\ K)
  | AddTable _ => r = Ok Written
  | ReadSchema => (exists ts tabs a b, r = Ok (Schema ts tabs) /\ order = a ++ b /\ ts = tm a /\ (~ tables_busy -> tabs = T) /\
                     (late p -> exists c, a = base ++ c))
                  \/ (exists e, r = Err e /\ (K \/ tables_busy))
  | CleanUp => False
  end.
Definition locked (d : disk) (l : option nat) : Prop := exists i, l = Some i /\ k_lock d = Some i.
Definition reading (names : list (option string)) (tabs : smap string ATable) : Prop :=
  msorted tabs /\ (forall x, In (Some x) names -> mget x T <> None) /\
  (forall x, mget x tabs <> None -> mget x tabs = mget x T) /\
  (forall x, ~ In (Some x) names -> mget x tabs = mget x T).
Definition pcinv (d : disk) (order : list nat) (K : Prop) (p : nat) (c : pc) : Prop :=
  match c with
  | Start j => j = jobs p
  | ALock k t i => jobs p = AddType k t /\ k_lock d = Some i
  | ARead k t l => jobs p = AddType k t /\ locked d l
  | AEnsure l m | AOpen l m => (exists k t, jobs p = AddType k t) /\ locked d l /\ m = recorded1 jobs (tm order) p /\ types_are d (tm order)
  | AWrite l m f => (exists k t, jobs p = AddType k t) /\ locked d l /\ m = recorded1 jobs (tm order) p /\ k_types d = Some (f, Cut)
  | TOpen t => jobs p = AddTable t
  | TWrite t _ => jobs p = AddTable t
  | ROpen => jobs p = ReadSchema
  | RLock i | RList i => jobs p = ReadSchema /\ k_lock d = Some i
  | RFiles i names ts tabs => jobs p = ReadSchema /\ k_lock d = Some i /\ (In None names -> k_types d <> None) /\
      (ts = tm order \/ ts = [] /\ In None names) /\ (~ tables_busy -> reading names tabs)
  | Leaving l r => (forall i e, l = Some (i, e) -> k_lock d = Some i) /\ result K order p r
  | Returned r => result K order p r
  | Killed => True
  end.
Definition committed (c : pc) : Prop :=
  (exists l, c = Leaving l (Ok Written)) \/ c = Returned (Ok Written) \/ c = Killed.
Record inv (d : disk) (st : nat -> pc) (order : list nat) : Prop := {
  i_dir : k_dir d = true;
  i_far : forall p, n <= p -> st p = Start (jobs p);
  i_pc : forall p, pcinv d order (killed st) p (st p);
  i_excl : forall p q i, holds (st p) = Some (i, true) -> q <> p -> holds (st q) = None;
  i_base : exists c, order = base ++ c;
  i_nodup : NoDup order;
  i_order : forall p, In p order -> (exists k t, jobs p = AddType k t) /\ committed (st p);
  i_types : types_are d (tm order) \/
            (exists f, k_types d = Some (f, Cut)) /\ (killed st \/ exists p l m f, st p = AWrite l m f);
  i_sorted : msorted (k_tables d);
  i_tables : ~ tables_busy -> tables_are d T }.

Lemma result_mono (K K' : Prop) order order' p r : (K -> K') -> (exists b, order' = order ++ b) -> result K order p r -> result K' order' p r.
Proof.
  intros HK [b ->] H. unfold result in *. destruct (jobs p).
  - destruct H as [[-> H]|[-> H]]; [left|right; auto]. split; [reflexivity|]. apply in_or_app. now left.
  - exact H.
  - destruct H as [(ts & tabs & a & b' & -> & -> & H)|(e & -> & H)]; [left|right].
    + exists ts, tabs, a, (b' ++ b). now rewrite app_assoc.
    + exists e. intuition.
  - exact H.
Qed.
Lemma pcinv_stable d d' order order' (K K' : Prop) p c :
  (forall i, k_lock d = Some i -> k_lock d' = Some i) -> (exists b, order' = order ++ b) -> (K -> K') ->
  (holds c = None \/ (k_types d' = k_types d /\ order' = order)) -> pcinv d order K p c -> pcinv d' order' K' p c.
Proof.
  intros HL HO HK HC H.
  assert (RM : forall r, result K order p r -> result K' order' p r) by (intros r; now apply result_mono).
  assert (LK : forall l, locked d l -> locked d' l) by (intros l (i & -> & E); exists i; auto).
  destruct c; cbn [pcinv] in *; auto.
  - destruct H as [H1 H2]; auto.
  - destruct H as [H1 H2]; auto.
  - destruct H as (H1 & H2 & H3 & H4). destruct HC as [HC|[E1 ->]].
    + destruct H2 as (i & -> & _). discriminate.
    + split; [exact H1|]. split; [auto|]. split; [exact H3|]. unfold types_are in *. now rewrite E1.
  - destruct H as (H1 & H2 & H3 & H4). destruct HC as [HC|[E1 ->]].
    + destruct H2 as (i & -> & _). discriminate.
    + split; [exact H1|]. split; [auto|]. split; [exact H3|]. unfold types_are in *. now rewrite E1.
  - destruct H as (H1 & H2 & H3 & H4). destruct HC as [HC|[E1 ->]].
    + destruct H2 as (i & -> & _). discriminate.
    + split; [exact H1|]. split; [auto|]. split; [exact H3|]. now rewrite E1.
  - destruct H as [H1 H2]; auto.
  - destruct H as [H1 H2]; auto.
  - destruct HC as [HC|[E1 ->]]; [discriminate|]. destruct H as (H1 & H2 & H3 & H4 & H5). rewrite E1. auto 7.
  - destruct H as [H1 H2]. split; [intros i e E; eapply HL, H1, E|auto].
Qed.

Lemma upd_same st p c : upd st p c p = c.
Proof. unfold upd. now rewrite Nat.eqb_refl. Qed.
Lemma upd_other st p c q : q <> p -> upd st p c q = st q.
Proof. unfold upd. intros H. now rewrite (proj2 (Nat.eqb_neq q p) H). Qed.
Lemma killed_upd st p c : st p <> Killed -> killed st -> killed (upd st p c).
Proof. intros N [q E]. exists q. rewrite upd_other; [exact E|]. intros ->. congruence. Qed.

(** A step that keeps the types: the new place is right, and locks stay exclusive. *)
Lemma inv_step d d' st order p c : inv d st order -> p < n -> st p <> Killed ->
  (forall i, k_lock d = Some i -> k_lock d' = Some i) -> k_types d' = k_types d -> k_dir d' = true ->
  msorted (k_tables d') -> (~ tables_busy -> k_tables d' = k_tables d) ->
  (forall l m f, st p <> AWrite l m f) ->
  pcinv d' order (killed (upd st p c)) p c ->
  (forall l, holds c = Some l -> holds (st p) = Some l \/ forall q, q <> p -> match holds (st q) with Some (j, e) => snd l = false /\ e = false | None => True end) ->
  (committed (st p) -> committed c) ->
  inv d' (upd st p c) order.
Proof.
  intros [D F P X Ba ND O Ty So Ta] Hp NK HL HT HD HS HTa NW Hc HX HC. pose proof (killed_upd st p c NK) as KM.
  split.
  - exact HD.
  - intros q Hq. rewrite upd_other by lia. now apply F.
  - intros q. destruct (Nat.eq_dec q p) as [->|N]; [now rewrite upd_same|]. rewrite upd_other by exact N.
    eapply (pcinv_stable d _ order _ (killed st)); [exact HL|exists []; now rewrite app_nil_r|exact KM|right; auto|apply P].
  - intros a b i Ha Nab. destruct (Nat.eq_dec a p) as [->|Na].
    + rewrite upd_same in Ha. rewrite upd_other by exact Nab. destruct (HX _ Ha) as [E|E]; [eapply X; eassumption|].
      specialize (E b Nab). destruct (holds (st b)) as [[j e]|]; [|reflexivity]. cbn in E. now destruct E.
    + rewrite upd_other in Ha by exact Na. destruct (Nat.eq_dec b p) as [->|Nb].
      * rewrite upd_same. destruct (holds c) as [l|] eqn:E; [|reflexivity]. destruct (HX l eq_refl) as [E2|E2].
        -- pose proof (X _ p _ Ha (fun e => Na (eq_sym e))) as Y. congruence.
        -- specialize (E2 a Na). rewrite Ha in E2. now destruct E2.
      * rewrite upd_other by exact Nb. eapply X; eassumption.
  - exact Ba.
  - exact ND.
  - intros q Hq. destruct (O q Hq) as [A B]. split; [exact A|]. destruct (Nat.eq_dec q p) as [->|N]; [rewrite upd_same; auto|now rewrite upd_other].
  - destruct Ty as [Ty|[[f E] Ty]]; [left; unfold types_are in *; now rewrite HT|]. right. split; [exists f; now rewrite HT|].
    destruct Ty as [Ty|(q & l & m & g & Ty)]; [left; auto|]. right. exists q, l, m, g. rewrite upd_other; [exact Ty|]. intros ->. now apply (NW l m g).
  - exact HS.
  - intros NB. destruct (Ta NB) as [A B]. unfold tables_are. rewrite (HTa NB). auto.
Qed.

Lemma free_spec st p i ex : free n st p i ex = true -> (forall q, n <= q -> holds (st q) = None) ->
  forall q, q <> p -> match holds (st q) with Some (j, e) => j = i -> ex = false /\ e = false | None => True end.
Proof.
  intros H F q N. destruct (Nat.lt_ge_cases q n) as [Hq|Hq]; [|now rewrite F].
  unfold free in H. rewrite forallb_forall in H. specialize (H q). rewrite in_seq in H. specialize (H (conj (Nat.le_0_l _) Hq)).
  rewrite (proj2 (Nat.eqb_neq q p) N) in H. cbn in H. destruct (holds (st q)) as [[j e]|]; [|exact I]. intros ->.
  rewrite Nat.eqb_refl in H. cbn in H. apply andb_true_iff in H as [A B]. now rewrite !negb_true_iff in *.
Qed.
Lemma holder_lock d st order q j e : inv d st order -> holds (st q) = Some (j, e) -> k_lock d = Some j.
Proof.
  intros I H. pose proof (i_pc _ _ _ I q) as P. destruct (st q); cbn in *; try discriminate.
  - destruct P as (_ & i & -> & E). injection H as <- _. exact E.
  - destruct P as (_ & (i & -> & E) & _). injection H as <- _. exact E.
  - destruct P as (_ & (i & -> & E) & _). injection H as <- _. exact E.
  - destruct P as (_ & (i & -> & E) & _). injection H as <- _. exact E.
  - injection H as <- _. apply P.
  - injection H as <- _. apply P.
  - subst. now apply (proj1 P j e).
Qed.
Lemma free_all d st order p i ex : inv d st order -> k_lock d = Some i -> free n st p i ex = true ->
  forall q, q <> p -> match holds (st q) with Some (j, e) => ex = false /\ e = false | None => True end.
Proof.
  intros I E H q N. pose proof (free_spec st p i ex H) as X.
  assert (F : forall q, n <= q -> holds (st q) = None) by (intros r Hr; now rewrite (i_far _ _ _ I r Hr)).
  specialize (X F q N). destruct (holds (st q)) as [[j e]|] eqn:Eh; [|exact Logic.I]. apply X.
  pose proof (holder_lock _ _ _ _ _ _ I Eh). congruence.
Qed.

Lemma reading_start d : tables_are d T -> msorted (k_tables d) -> forall l, (forall x, In (Some x) l <-> In x (mkeys (k_tables d))) -> reading l [].
Proof.
  intros [KE A] So l HL. split; [apply msorted_nil|]. split; [|split; [intros x X; now destruct X|]].
  - intros x Hx. apply HL in Hx. rewrite KE in Hx. unfold mkeys in Hx. apply in_map_iff in Hx as ([y t] & <- & Hx).
    cbn. rewrite (In_mget _ _ _ ST Hx). discriminate.
  - intros x Hx. cbn. symmetry. destruct (mget x T) as [t|] eqn:E; [|reflexivity]. destruct Hx. apply HL. rewrite KE.
    apply mget_In in E. apply (in_map fst) in E. exact E.
Qed.
Lemma reading_next x r tabs t : reading (Some x :: r) tabs -> mget x T = Some t -> t_name t = x -> reading r (mput (t_name t) t tabs).
Proof.
  intros (S1 & A & B & C) E N. split; [now apply mput_sorted|]. split; [intros y Hy; apply A; now right|]. split.
  - intros y. rewrite mget_mput by exact S1. destruct (keqb_spec y (t_name t)) as [->|NE]; [intros _; now rewrite N|apply B].
  - intros y Hy. rewrite mget_mput by exact S1. destruct (keqb_spec y (t_name t)) as [->|NE]; [now rewrite N|].
    apply C. intros [[= <-]|H]; [congruence|contradiction].
Qed.
Lemma reading_none r tabs : reading (None :: r) tabs -> reading r tabs.
Proof.
  intros (S1 & A & B & C). split; [exact S1|]. split; [intros y Hy; apply A; now right|]. split; [exact B|].
  intros x Hx. apply C. intros [H|H]; [discriminate|contradiction].
Qed.
Lemma reading_done tabs : reading [] tabs -> tabs = T.
Proof. intros (S1 & _ & _ & C). apply mkeys_ext; auto. Qed.

Lemma open_lock_same d i d' : open_lock d = (i, d') ->
  k_lock d' = Some i /\ (forall j, k_lock d = Some j -> k_lock d' = Some j) /\ k_types d' = k_types d /\
  k_dir d' = k_dir d /\ k_tables d' = k_tables d.
Proof.
  unfold open_lock. destruct (k_lock d) as [j|] eqn:E; intros [= <- <-]; cbn; (split; [assumption || reflexivity|]); (split; [intros k Hk; congruence|]); auto.
Qed.
Lemma types_none order : (exists d, types_are d (tm order) /\ k_types d = None) -> tm order = [].
Proof. intros (d & H & E). unfold types_are in H. now rewrite E in H. Qed.
Lemma types_app order p : tm (order ++ [p]) = recorded1 jobs (tm order) p.
Proof. unfold types_after. now rewrite fold_left_app. Qed.
Lemma entries_none d : In None (ls (entries d)) <-> k_types d <> None.
Proof.
  assert (P : forall x, In x (ls (entries d)) <-> In x (entries d)).
  { intros x. split; apply Permutation_in; [apply PL|apply Permutation_sym, PL]. }
  rewrite P. unfold entries. rewrite in_app_iff, in_map_iff. destruct (k_types d); cbn; split; intros H; try discriminate; try contradiction; auto.
  destruct H as [[]|(x & H & _)]. discriminate.
Qed.
Lemma entries_some d x : In (Some x) (ls (entries d)) <-> In x (mkeys (k_tables d)).
Proof.
  assert (P : In (Some x) (ls (entries d)) <-> In (Some x) (entries d)) by (split; apply Permutation_in; [apply PL|apply Permutation_sym, PL]).
  rewrite P. unfold entries. rewrite in_app_iff, in_map_iff. split.
  - intros [H|(y & [= <-] & H)]; [|exact H]. destruct (k_types d); [destruct H as [H|[]]; discriminate|destruct H].
  - intros H. right. eauto.
Qed.

Lemma busy_dec : tables_busy \/ ~ tables_busy.
Proof.
  unfold tables_busy. induction n as [|k IH]; [right; intros (q & t & H & _); lia|].
  destruct IH as [(q & t & H & E)|IH]; [left; exists q, t; auto|].
  destruct (jobs k) as [| t | |] eqn:E; [|left; exists k, t; auto| |];
    right; intros (q & t' & H & E2); apply IH; exists q, t'; (split; [|exact E2]);
    assert (q <> k) by (intros ->; congruence); lia.
Qed.
Ltac calm := first [ assumption | reflexivity | (intros; assumption) | (intros; discriminate) | (intros; congruence) ].
Lemma with_dir_id d : k_dir d = true -> with_dir d = d.
Proof. destruct d; cbn. now intros ->. Qed.

Lemma inv_run d st order p d' c : inv d st order -> p < n -> pc_step n ls st p d = Some (d', c) ->
  exists order', inv d' (upd st p c) order' /\ exists b, order' = order ++ b.
Proof.
  intros I Hp E. pose proof (i_pc _ _ _ I p) as P. pose proof (i_dir _ _ _ I) as D. unfold pc_step in E.
  assert (SAME : forall cc, st p <> Killed -> (forall l m f, st p <> AWrite l m f) -> pcinv d order (killed (upd st p cc)) p cc ->
     (forall l, holds cc = Some l -> holds (st p) = Some l \/ forall q, q <> p -> match holds (st q) with Some (j, e) => snd l = false /\ e = false | None => True end) ->
     (committed (st p) -> committed cc) -> exists order', inv d (upd st p cc) order' /\ exists b, order' = order ++ b).
  { intros cc A1 A2 A3 A4 A5. exists order. split; [|exists []; now rewrite app_nil_r].
    eapply inv_step; try eassumption; calm || apply (i_sorted _ _ _ I). }
  pose proof (i_types _ _ _ I) as IT.
  destruct (st p) as [j|k t i|k t l|l m|l m|l m f|t|t f| |i|i|i names ts tabs|l r|r|] eqn:Es; cbn [pcinv] in P.
  - (* Start *) subst j. destruct (jobs p) as [k t|t| |] eqn:Ej.
    + rewrite D in E. destruct (open_lock d) as [i d1] eqn:EO. injection E as <- <-.
      destruct (open_lock_same _ _ _ EO) as (L1 & L2 & L3 & L4 & L5).
      exists order. split; [|exists []; now rewrite app_nil_r].
      eapply inv_step; try eassumption; rewrite ?Es, ?L5; try calm.
      * apply (i_sorted _ _ _ I).
      * cbn. auto.
      * intros [[? H]|[H|H]]; discriminate.
    + injection E as <- <-. rewrite with_dir_id by exact D. apply SAME; cbn; auto; try calm. intros [[? H]|[H|H]]; discriminate.
    + injection E as <- <-. rewrite with_dir_id by exact D. apply SAME; cbn; auto; try calm. intros [[? H]|[H|H]]; discriminate.
    + now destruct (NC p).
  - (* ALock *) destruct P as [P1 P2]. destruct (free n st p i true) eqn:EF; [|discriminate]. injection E as <- <-.
    apply SAME; try calm.
    + cbn. split; [exact P1|]. exists i. auto.
    + cbn. intros l [= <-]. right. intros q Nq. pose proof (free_all _ _ _ _ _ _ I P2 EF q Nq) as X.
      destruct (holds (st q)) as [[j e]|]; [|exact Logic.I]. now destruct X.
    + intros [[? H]|[H|H]]; discriminate.
  - (* ARead *) destruct P as [P1 (i & -> & P2)].
    assert (X : forall m, types_are d (tm order) -> m = tm order ->
      (d', c) = (d, AEnsure (Some i) (mput k t m)) -> exists order', inv d' (upd st p c) order' /\ exists b, order' = order ++ b).
    { intros m TA -> [= -> ->]. apply SAME; try calm.
      + cbn. split; [eauto|]. split; [exists i; auto|]. split; [|exact TA]. unfold recorded1. now rewrite P1.
      + cbn. auto.
      + intros [[? H]|[H|H]]; discriminate. }
    destruct (k_types d) as [[f [ts|]]|] eqn:ET.
    + injection E as <- <-. apply (X ts); [| |reflexivity].
      * destruct IT as [IT|[[g G] _]]; [exact IT|congruence].
      * destruct IT as [IT|[[g G] _]]; [|congruence]. unfold types_are in IT. now rewrite ET in IT.
    + injection E as <- <-. apply SAME; try calm.
      * cbn. split; [intros ? ? [= <- _]; exact P2|]. unfold result. rewrite P1. right. split; [reflexivity|].
        destruct IT as [IT|[_ [IT|(q & l & m & g & IT)]]]; [unfold types_are in IT; now rewrite ET in IT| |].
        -- apply killed_upd; [congruence|exact IT].
        -- assert (Nq : q <> p) by (intros ->; congruence).
           pose proof (i_pc _ _ _ I q) as Q. rewrite IT in Q. destruct Q as (_ & (j & -> & _) & _).
           pose proof (i_excl _ _ _ I p q i) as Y. rewrite Es, IT in Y. specialize (Y eq_refl Nq). discriminate.
      * cbn. auto.
      * intros [[? H]|[H|H]]; discriminate.
    + injection E as <- <-. apply (X []); [| |reflexivity].
      * destruct IT as [IT|[[g G] _]]; [exact IT|congruence].
      * destruct IT as [IT|[[g G] _]]; [|congruence]. unfold types_are in IT. now rewrite ET in IT.
  - (* AEnsure *) destruct P as (P1 & (i & -> & P2) & P3 & P4). injection E as <- <-. rewrite with_dir_id by exact D. apply SAME; try calm.
    + cbn. split; [exact P1|]. split; [exists i; auto|]. auto.
    + cbn. auto.
    + intros [[? H]|[H|H]]; discriminate.
  - (* AOpen *) destruct P as (P1 & (i & -> & P2) & P3 & P4). rewrite D in E.
    assert (OT : forall q, q <> p -> holds (st q) = None) by (intros q Nq; apply (i_excl _ _ _ I p q i); [now rewrite Es|exact Nq]).
    assert (X : forall f d1, k_types d1 = Some (f, Cut) -> k_lock d1 = k_lock d -> k_dir d1 = true -> k_tables d1 = k_tables d ->
       inv d1 (upd st p (AWrite (Some i) m f)) order).
    { intros f d1 T1 T2 T3 T4. pose proof I as [_ F PI X Ba ND O Ty So Ta]. split.
      - exact T3.
      - intros q Hq. rewrite upd_other by lia. now apply F.
      - intros q. destruct (Nat.eq_dec q p) as [->|N].
        + rewrite upd_same. cbn. split; [exact P1|]. split; [exists i; now rewrite T2|]. auto.
        + rewrite upd_other by exact N. eapply (pcinv_stable d _ order _ (killed st)); [intros j; now rewrite T2|exists []; now rewrite app_nil_r| |left; apply OT; exact N|apply PI].
          apply killed_upd. congruence.
      - intros a b j Ha Nab. destruct (Nat.eq_dec a p) as [->|Na].
        + rewrite upd_other by exact Nab. apply OT, Nab.
        + rewrite upd_other, OT in Ha by exact Na. discriminate.
      - exact Ba.
      - exact ND.
      - intros q Hq. destruct (O q Hq) as [A B]. split; [exact A|]. rewrite upd_other; [exact B|].
        intros ->. rewrite Es in B. destruct B as [[? H]|[H|H]]; discriminate.
      - right. split; [eauto|]. right. exists p, (Some i), m, f. apply upd_same.
      - now rewrite T4.
      - intros NB. unfold tables_are. rewrite T4. now apply Ta. }
    exists order. split; [|exists []; now rewrite app_nil_r].
    destruct (k_types d) as [[f ?]|] eqn:ET; injection E as <- <-; apply X; reflexivity || assumption.
  - (* AWrite *) destruct P as (P1 & (i & -> & P2) & P3 & P4). rewrite P4, Nat.eqb_refl in E. injection E as <- <-.
    assert (OT : forall q, q <> p -> holds (st q) = None) by (intros q Nq; apply (i_excl _ _ _ I p q i); [now rewrite Es|exact Nq]).
    exists (order ++ [p]). split; [|eauto]. pose proof I as [_ F PI X Ba ND O Ty So Ta].
    assert (NI : ~ In p order).
    { intros H. destruct (O p H) as [_ B]. rewrite Es in B. destruct B as [[? B]|[B|B]]; discriminate. }
    split.
    + exact D.
    + intros q Hq. rewrite upd_other by lia. now apply F.
    + intros q. destruct (Nat.eq_dec q p) as [->|N].
      * rewrite upd_same. cbn. split; [intros ? ? [= <- _]; exact P2|]. unfold result. destruct P1 as (k & t & ->). left.
        split; [reflexivity|]. apply in_or_app. right. now left.
      * rewrite upd_other by exact N. eapply (pcinv_stable d _ order _ (killed st)); [| | |left; apply OT; exact N|apply PI]; [cbn; auto|eauto|].
        apply killed_upd. congruence.
    + intros a b j Ha Nab. destruct (Nat.eq_dec a p) as [->|Na].
      * rewrite upd_other by exact Nab. apply OT, Nab.
      * rewrite upd_other, OT in Ha by exact Na. discriminate.
    + destruct Ba as [c ->]. exists (c ++ [p]). now rewrite app_assoc.
    + apply NoDup_Add with (a := p) (l := order); [|split; assumption].
      rewrite <- (app_nil_r order) at 1. apply Add_app.
    + intros q Hq. apply in_app_or in Hq as [Hq|[<-|[]]].
      * destruct (O q Hq) as [A B]. split; [exact A|]. rewrite upd_other; [exact B|]. intros ->. contradiction.
      * split; [exact P1|]. rewrite upd_same. left. eauto.
    + left. unfold types_are. cbn. now rewrite types_app.
    + exact So.
    + exact Ta.
  - (* TOpen *) assert (TB : tables_busy) by (exists p, t; auto). rewrite D in E.
    exists order. split; [|exists []; now rewrite app_nil_r].
    destruct (mget (t_name t) (k_tables d)) as [[f ?]|] eqn:EM; injection E as <- <-;
      (eapply inv_step; [exact I|exact Hp|congruence| | | | | | | | |]; cbn; try calm; rewrite ?Es; try calm);
      try (apply mput_sorted, (i_sorted _ _ _ I)); try contradiction; intros [[? H]|[H|H]]; discriminate.
  - (* TWrite *) assert (TB : tables_busy) by (exists p, t; auto).
    exists order. split; [|exists []; now rewrite app_nil_r].
    assert (R : result (killed (upd st p (Returned (Ok Written)))) order p (Ok Written)) by (unfold result; now rewrite P).
    destruct (mget (t_name t) (k_tables d)) as [[g ?]|] eqn:EM; [destruct (Nat.eqb f g)|]; injection E as <- <-;
      (eapply inv_step; [exact I|exact Hp|congruence| | | | | | | | |]; cbn; try calm; rewrite ?Es; try calm);
      try (apply mput_sorted, (i_sorted _ _ _ I)); try apply (i_sorted _ _ _ I); try contradiction; intros [[? H]|[H|H]]; discriminate.
  - (* ROpen *) rewrite D in E. destruct (open_lock d) as [i d1] eqn:EO. injection E as <- <-.
    destruct (open_lock_same _ _ _ EO) as (L1 & L2 & L3 & L4 & L5).
    exists order. split; [|exists []; now rewrite app_nil_r].
    eapply inv_step; try eassumption; rewrite ?Es, ?L5; try calm.
    * apply (i_sorted _ _ _ I).
    * cbn. auto.
    * intros [[? H]|[H|H]]; discriminate.
  - (* RLock *) destruct P as [P1 P2]. destruct (free n st p i false) eqn:EF; [|discriminate]. injection E as <- <-.
    apply SAME; try calm.
    + cbn. auto.
    + cbn. intros l [= <-]. right. intros q Nq. exact (free_all _ _ _ _ _ _ I P2 EF q Nq).
    + intros [[? H]|[H|H]]; discriminate.
  - (* RList *) destruct P as [P1 P2]. rewrite D in E. injection E as <- <-. apply SAME; try calm.
    + cbn. split; [exact P1|]. split; [exact P2|]. rewrite entries_none. split; [auto|]. split.
      * destruct (k_types d) as [x|] eqn:ET; [right; split; [reflexivity|discriminate]|left].
        destruct IT as [IT|[[f IT] _]]; [|congruence]. unfold types_are in IT. now rewrite ET in IT.
      * intros NB. eapply reading_start; [apply (i_tables _ _ _ I NB)|apply (i_sorted _ _ _ I)|apply entries_some].
    + cbn. auto.
    + intros [[? H]|[H|H]]; discriminate.
  - (* RFiles *) destruct P as (P1 & P2 & P3 & P4 & P5).
    assert (NW : forall q l m f, st q <> AWrite l m f).
    { intros q l m f Q. assert (Nq : p <> q) by (intros <-; congruence). pose proof (i_pc _ _ _ I q) as Y. rewrite Q in Y.
      destruct Y as (_ & (j & -> & _) & _). pose proof (i_excl _ _ _ I q p j) as Y. rewrite Es, Q in Y. specialize (Y eq_refl Nq). discriminate. }
    assert (FAIL : forall e, killed st \/ tables_busy -> (d', c) = (d, Leaving (Some (i, false)) (Err e)) ->
      exists order', inv d' (upd st p c) order' /\ exists b, order' = order ++ b).
    { intros e HK [= -> ->]. apply SAME; try calm.
      + cbn. split; [intros ? ? [= <- _]; exact P2|]. unfold result. rewrite P1. right. exists e. split; [reflexivity|].
        destruct HK as [HK|HK]; [left; apply killed_upd; [congruence|exact HK]|now right].
      + cbn. auto.
      + intros [[? H]|[H|H]]; discriminate. }
    destruct names as [|[x|] r].
    + injection E as <- <-. apply SAME; try calm.
      * cbn. split; [intros ? ? [= <- _]; exact P2|]. unfold result. rewrite P1. left. exists ts, tabs, order, [].
        split; [reflexivity|]. split; [now rewrite app_nil_r|]. split; [destruct P4 as [P4|[_ []]]; exact P4|].
        split; [intros NB; apply reading_done, P5, NB|]. intros _. apply (i_base _ _ _ I).
      * cbn. auto.
      * intros [[? H]|[H|H]]; discriminate.
    + assert (TB : tables_busy \/ exists f t, mget x (k_tables d) = Some (f, Whole t) /\ (~ tables_busy -> mget x T = Some t /\ t_name t = x)).
      { destruct busy_dec as [B|NB]; [now left|right]. destruct (P5 NB) as (_ & A & _). specialize (A x (or_introl eq_refl)).
        destruct (mget x T) as [t|] eqn:EX; [|now destruct A]. destruct (proj2 (i_tables _ _ _ I NB) x t EX) as (TN & f & EM).
        exists f, t. auto. }
      destruct TB as [TB|(f & t & EM & TN)].
      * destruct (mget x (k_tables d)) as [[f [t|]]|]; injection E as <- <-; [|eapply FAIL; auto|eapply FAIL; auto].
        apply SAME; try calm.
        -- cbn. split; [exact P1|]. split; [exact P2|]. split; [intros H; apply P3; now right|]. split; [|contradiction].
           destruct P4 as [P4|[P4 [P6|P6]]]; [now left|discriminate|now right].
        -- cbn. auto.
        -- intros [[? H]|[H|H]]; discriminate.
      * rewrite EM in E. injection E as <- <-. apply SAME; try calm.
        -- cbn. split; [exact P1|]. split; [exact P2|]. split; [intros H; apply P3; now right|]. split.
           ++ destruct P4 as [P4|[P4 [P6|P6]]]; [now left|discriminate|now right].
           ++ intros NB. destruct (TN NB). eapply reading_next; eauto.
        -- cbn. auto.
        -- intros [[? H]|[H|H]]; discriminate.
    + destruct (k_types d) as [[f [m|]]|] eqn:ET.
      * injection E as <- <-. apply SAME; try calm.
        -- cbn. split; [exact P1|]. split; [exact P2|]. split; [rewrite ET; discriminate|]. split.
           ++ left. destruct IT as [IT|[[g IT] _]]; [|congruence]. unfold types_are in IT. now rewrite ET in IT.
           ++ intros NB. eapply reading_none, P5, NB.
        -- cbn. auto.
        -- intros [[? H]|[H|H]]; discriminate.
      * injection E as <- <-. eapply FAIL; [|reflexivity]. left.
        destruct IT as [IT|[_ [IT|(q & l & m & g & IT)]]]; [unfold types_are in IT; now rewrite ET in IT|exact IT|now destruct (NW q l m g)].
      * destruct P3; [now left|reflexivity].
  - (* Leaving *) destruct P as [P1 P2]. injection E as <- <-. apply SAME; try calm.
    + cbn. eapply result_mono; [apply killed_upd; congruence|exists []; now rewrite app_nil_r|exact P2].
    + intros [[l' [= _ ->]]|[H|H]]; [right; now left|discriminate|discriminate].
  - discriminate.
  - discriminate.
Qed.
End Inv.

Section Events.
Variable n : nat.
Variable ls : list (option string) -> list (option string).
Hypothesis PL : forall l, Permutation (ls l) l.
Variable jobs : nat -> job.
Hypothesis NC : forall p, jobs p <> CleanUp.
Variables (init : typemap) (T : smap string ATable).
Hypothesis ST : msorted T.
Notation inv := (inv n jobs init T).

Lemma inv_kill base late d st order p : inv base late d st order -> p < n -> (forall r, st p <> Returned r) -> inv base late d (upd st p Killed) order.
Proof.
  intros I Hp NR. pose proof I as [D F P X Ba ND O Ty So Ta].
  assert (KK : killed (upd st p Killed)) by (exists p; apply upd_same).
  split; auto.
  - intros q Hq. rewrite upd_other by lia. now apply F.
  - intros q. destruct (Nat.eq_dec q p) as [->|N]; [now rewrite upd_same|]. rewrite upd_other by exact N.
    eapply (pcinv_stable n jobs init T base late d _ order _ (killed st)); [auto|exists []; now rewrite app_nil_r|auto|right; auto|apply P].
  - intros a b i Ha Nab. destruct (Nat.eq_dec a p) as [->|Na]; [rewrite upd_same in Ha; discriminate|].
    rewrite upd_other in Ha by exact Na. destruct (Nat.eq_dec b p) as [->|Nb]; [now rewrite upd_same|].
    rewrite upd_other by exact Nb. eapply X; eassumption.
  - intros q Hq. destruct (O q Hq) as [A B]. split; [exact A|]. destruct (Nat.eq_dec q p) as [->|N]; [rewrite upd_same; right; now right|now rewrite upd_other].
  - destruct Ty as [Ty|[Ty _]]; [now left|right]. auto.
Qed.
Lemma inv_happen base late e d st order d' st' : inv base late d st order -> happen n ls e (d, st) = (d', st') ->
  exists order', inv base late d' st' order' /\ exists b, order' = order ++ b.
Proof.
  intros I E.
  assert (Z : (d', st') = (d, st) -> exists order', inv base late d' st' order' /\ exists b, order' = order ++ b).
  { intros [= -> ->]. exists order. split; [exact I|]. exists []. now rewrite app_nil_r. }
  destruct e as [p|p]; cbn [happen] in E.
  - destruct (Nat.ltb_spec p n) as [Hp|Hp]; [|now apply Z].
    destruct (pc_step n ls st p d) as [[d1 c]|] eqn:ES; [|now apply Z]. injection E as <- <-.
    eapply inv_run; eassumption.
  - assert (Y : p < n -> (forall r, st p <> Returned r) -> exists order', inv base late d (upd st p Killed) order' /\ exists b, order' = order ++ b).
    { intros Hp NR. exists order. split; [now apply inv_kill|]. exists []. now rewrite app_nil_r. }
    destruct (Nat.ltb_spec p n) as [Hp|Hp].
    + destruct (st p) eqn:Es; try (injection E as <- <-; apply Y; [exact Hp|intros; discriminate]). now apply Z.
    + apply Z. now destruct (st p).
Qed.
Lemma inv_events base late l : forall d st order d' st', inv base late d st order ->
  fold_left (fun w e => happen n ls e w) l (d, st) = (d', st') ->
  exists order', inv base late d' st' order' /\ exists b, order' = order ++ b.
Proof.
  induction l as [|e l IH]; intros d st order d' st' I E; cbn [fold_left] in E.
  - injection E as <- <-. exists order. split; [exact I|]. exists []. now rewrite app_nil_r.
  - destruct (happen n ls e (d, st)) as [d1 st1] eqn:EH. destruct (inv_happen _ _ _ _ _ _ _ _ I EH) as (o1 & I1 & b1 & ->).
    destruct (IH _ _ _ _ _ I1 E) as (o2 & I2 & b2 & ->). exists ((order ++ b1) ++ b2). split; [exact I2|].
    exists (b1 ++ b2). now rewrite app_assoc.
Qed.
Lemma inv_start d : k_dir d = true -> types_are d init -> msorted (k_tables d) -> tables_are d T ->
  inv [] (fun _ => True) d (fun p => Start (jobs p)) [].
Proof.
  intros D Ty So Ta. split; cbn; auto.
  - now exists [].
  - constructor.
  - intros p [].
Qed.
(** Looking back from a later moment at what was recorded then. *)
Lemma inv_rebase d st order base late : inv base late d st order -> inv order (fun p => exists j, st p = Start j) d st order.
Proof.
  intros I. pose proof I as [D F P X Ba ND O Ty So Ta]. split; auto; [|exists []; now rewrite app_nil_r].
  intros p. specialize (P p). destruct (st p) eqn:Es; cbn [pcinv] in *; auto.
  - destruct P as [P1 P2]. split; [exact P1|]. unfold result in *. destruct (jobs p); auto.
    destruct P2 as [(ts & tabs & a & b & -> & -> & A & B & C)|P2]; [left|now right].
    exists ts, tabs, a, b. repeat split; auto. intros (j & H). congruence.
  - unfold result in *. destruct (jobs p); auto.
    destruct P as [(ts & tabs & a & b & -> & -> & A & B & C)|P]; [left|now right].
    exists ts, tabs, a, b. repeat split; auto. intros (j & H). congruence.
Qed.
End Events.

(** Whoever holds the lock can go on. *)
Section Progress.
Variable n : nat.
Variable ls : list (option string) -> list (option string).
Definition play (l : list event) (w : disk * (nat -> pc)) : disk * (nat -> pc) := fold_left (fun w e => happen n ls e w) l w.

Lemma holder_steps st p d : holds (st p) <> None -> pc_step n ls st p d <> None.
Proof.
  intros H. unfold pc_step. destruct (st p) as [j|k t i|k t l|l m|l m|l m f|t|t f| |i|i|i names ts tabs|l r|r|]; cbn in H; try congruence.
  - destruct (k_types d) as [[f []]|]; discriminate.
  - destruct (k_dir d); [destruct (k_types d) as [[f c]|]|]; discriminate.
  - destruct (k_dir d); discriminate.
  - destruct names as [|[x|] r]; [discriminate| |].
    + destruct (mget x (k_tables d)) as [[f []]|]; discriminate.
    + destruct (k_types d) as [[f []]|]; discriminate.
Qed.
Lemma blocked_waits st p d : ~ ended (st p) -> pc_step n ls st p d = None ->
  exists q, q < n /\ q <> p /\ holds (st q) <> None.
Proof.
  intros NE E.
  assert (X : forall i ex, free n st p i ex = false -> exists q, q < n /\ q <> p /\ holds (st q) <> None).
  { intros i ex. unfold free. intros H. apply not_true_iff_false in H.
    assert (Y : exists q, In q (seq 0 n) /\ (Nat.eqb q p || match holds (st q) with Some (j, e) => negb (Nat.eqb j i) || (negb ex && negb e) | None => true end)%bool = false).
    { destruct (existsb (fun q => negb (Nat.eqb q p || match holds (st q) with Some (j, e) => negb (Nat.eqb j i) || (negb ex && negb e) | None => true end)%bool) (seq 0 n)) eqn:EX.
      - apply existsb_exists in EX as (q & A & B). exists q. split; [exact A|]. now apply negb_true_iff.
      - destruct H. apply forallb_forall. intros q Hq. destruct (Nat.eqb q p || _)%bool eqn:EQ; [reflexivity|].
        assert (Z : existsb (fun q => negb (Nat.eqb q p || match holds (st q) with Some (j, e) => negb (Nat.eqb j i) || (negb ex && negb e) | None => true end)%bool) (seq 0 n) = true); [|congruence].
        apply existsb_exists. exists q. split; [exact Hq|]. now rewrite EQ. }
    destruct Y as (q & A & B). apply in_seq in A. apply orb_false_iff in B as [B1 B2]. exists q.
    split; [lia|]. split; [now apply Nat.eqb_neq|]. intros Z. rewrite Z in B2. discriminate. }
  unfold pc_step in E. destruct (st p) as [j|k t i|k t l|l m|l m|l m f|t|t f| |i|i|i names ts tabs|l r|r|] eqn:Es; try discriminate E.
  - destruct j; [|discriminate|discriminate|].
    + destruct (k_dir d); [destruct (open_lock d)|]; discriminate.
    + destruct (k_dir d); discriminate.
  - destruct (free n st p i true) eqn:EF; [discriminate|]. eapply X, EF.
  - destruct (k_types d) as [[f []]|]; discriminate.
  - destruct (k_dir d); [destruct (k_types d) as [[f c]|]|]; discriminate.
  - destruct (k_dir d); [destruct (mget (t_name t) (k_tables d)) as [[f c]|]|]; discriminate.
  - destruct (k_dir d); [destruct (open_lock d)|]; discriminate.
  - destruct (free n st p i false) eqn:EF; [discriminate|]. eapply X, EF.
  - destruct (k_dir d); discriminate.
  - exfalso. destruct names as [|[x|] r]; [discriminate| |].
    + destruct (mget x (k_tables d)) as [[f []]|]; discriminate.
    + destruct (k_types d) as [[f []]|]; discriminate.
  - now destruct NE.
  - now destruct NE.
Qed.

Section One.
Variable p : nat.
Hypothesis Hp : p < n.
Definition alone (c : pc) (st : nat -> pc) : Prop := holds c <> None \/ forall q, q <> p -> holds (st q) = None.
Definition fin (c : pc) : Prop := forall d st, st p = c -> alone c st ->
  exists l, ended (snd (play l (d, st)) p) /\ forall q, q <> p -> snd (play l (d, st)) q = st q.
Lemma fin_step c : ~ ended c ->
  (forall d st d' c', st p = c -> alone c st -> pc_step n ls st p d = Some (d', c') -> fin c' /\ (alone c' st \/ ended c')) -> fin c.
Proof.
  intros NE H d st Es A.
  destruct (pc_step n ls st p d) as [[d' c']|] eqn:E.
  - destruct (H d st d' c' Es A E) as [Fc Ac].
    assert (PL1 : play [Run p] (d, st) = (d', upd st p c')).
    { unfold play. cbn [fold_left happen]. rewrite (proj2 (Nat.ltb_lt p n) Hp), E. reflexivity. }
    destruct Ac as [Ac|Ec].
    + destruct (Fc d' (upd st p c')) as (l & L1 & L2).
      * apply upd_same.
      * destruct Ac as [Ac|Ac]; [now left|right]. intros q N. rewrite upd_other by exact N. now apply Ac.
      * exists ([Run p] ++ l). unfold play in *. rewrite fold_left_app, PL1. split; [exact L1|].
        intros q N. rewrite L2 by exact N. now apply upd_other.
    + exists [Run p]. rewrite PL1. cbn [snd]. rewrite upd_same. split; [exact Ec|]. intros q N. now apply upd_other.
  - exfalso. rewrite <- Es in NE. destruct (blocked_waits _ _ _ NE E) as (q & _ & N & Q).
    destruct A as [A|A]; [|now rewrite A in Q]. rewrite <- Es in A. exact (holder_steps _ _ _ A E).
Qed.
Lemma fin_returned r : fin (Returned r).
Proof. intros d st Es _. exists []. cbn. now rewrite Es. Qed.
Lemma fin_leaving l r : fin (Leaving l r).
Proof.
  apply fin_step; [now intros []|]. intros d st d' c' Es A E. unfold pc_step in E. rewrite Es in E. injection E as <- <-.
  split; [apply fin_returned|right; exact I].
Qed.
Ltac go := apply fin_step; [now intros []|]; intros d st d' c' Es A E; unfold pc_step in E; rewrite Es in E.
Lemma fin_awrite l m f : fin (AWrite l m f).
Proof. go. injection E as <- <-. split; [apply fin_leaving|left]. destruct l; [now left|exact A]. Qed.
Lemma fin_aopen l m : fin (AOpen l m).
Proof.
  go. destruct (k_dir d); [destruct (k_types d) as [[f c]|]|]; injection E as <- <-;
    (split; [apply fin_awrite || apply fin_leaving|left]); (destruct l; [now left|exact A]).
Qed.
Lemma fin_aensure l m : fin (AEnsure l m).
Proof. go. injection E as <- <-. split; [apply fin_aopen|left]. destruct l; [now left|exact A]. Qed.
Lemma fin_aread k t l : fin (ARead k t l).
Proof.
  go. destruct (k_types d) as [[f [ts|]]|]; injection E as <- <-;
    (split; [apply fin_aensure || apply fin_leaving|left]); (destruct l; [now left|exact A]).
Qed.
Lemma fin_alock k t i : fin (ALock k t i).
Proof. go. destruct (free n st p i true); [|discriminate]. injection E as <- <-. split; [apply fin_aread|left; now left]. Qed.
Lemma fin_rfiles i names : forall ts tabs, fin (RFiles i names ts tabs).
Proof.
  induction names as [|[x|] r IH]; intros ts tabs; go.
  - injection E as <- <-. split; [apply fin_leaving|left; now left].
  - destruct (mget x (k_tables d)) as [[f [t|]]|]; injection E as <- <-; (split; [apply IH || apply fin_leaving|left; now left]).
  - destruct (k_types d) as [[f [t|]]|]; injection E as <- <-; (split; [apply IH || apply fin_leaving|left; now left]).
Qed.
Lemma fin_rlist i : fin (RList i).
Proof. go. destruct (k_dir d); injection E as <- <-; (split; [apply fin_rfiles || apply fin_leaving|left; now left]). Qed.
Lemma fin_rlock i : fin (RLock i).
Proof. go. destruct (free n st p i false); [|discriminate]. injection E as <- <-. split; [apply fin_rlist|left; now left]. Qed.
Lemma fin_ropen : fin ROpen.
Proof.
  go. destruct (k_dir d); [destruct (open_lock d) as [i d1]|]; injection E as <- <-; (split; [apply fin_rlock || apply fin_returned|]); [left|right; exact I].
  destruct A as [A|A]; [now destruct A|now right].
Qed.
Lemma fin_twrite t f : fin (TWrite t f).
Proof. go. injection E as <- <-. split; [apply fin_returned|right; exact I]. Qed.
Lemma fin_topen t : fin (TOpen t).
Proof.
  go. destruct (k_dir d); [destruct (mget (t_name t) (k_tables d)) as [[f c]|]|]; injection E as <- <-;
    (split; [apply fin_twrite || apply fin_returned|]); [left; exact A|left; exact A|right; exact I].
Qed.
Lemma fin_all c : fin c.
Proof.
  destruct c; try (now auto using fin_alock, fin_aread, fin_aensure, fin_aopen, fin_awrite, fin_topen, fin_twrite, fin_ropen, fin_rlock, fin_rlist, fin_rfiles, fin_leaving, fin_returned).
  - go. destruct j.
    + destruct (k_dir d); [destruct (open_lock d) as [i d1]|]; injection E as <- <-; (split; [apply fin_alock || apply fin_aread|left]); destruct A as [A|A]; (now destruct A) || now right.
    + injection E as <- <-. split; [apply fin_topen|left; exact A].
    + injection E as <- <-. split; [apply fin_ropen|left; exact A].
    + destruct (k_dir d); injection E as <- <-; (split; [apply fin_returned|right; exact I]).
  - intros d st Es _. exists []. cbn. now rewrite Es.
Qed.
End One.

Definition endedb (c : pc) : bool := match c with Returned _ | Killed => true | _ => false end.
Lemma endedb_spec c : endedb c = true <-> ended c.
Proof. destruct c; cbn; split; auto; discriminate || contradiction. Qed.
Lemma all_finish : forall k d st, (forall q, n <= q -> holds (st q) = None) ->
  length (filter (fun p => negb (endedb (st p))) (seq 0 n)) = k ->
  exists l, forall p, p < n -> ended (snd (play l (d, st)) p).
Proof.
  induction k as [|k IH]; intros d st F E.
  - exists []. intros p Hp. cbn. apply endedb_spec. destruct (endedb (st p)) eqn:EB; [reflexivity|].
    assert (X : In p (filter (fun p => negb (endedb (st p))) (seq 0 n))) by (apply filter_In; rewrite EB, in_seq; cbn; split; [lia|reflexivity]).
    apply length_zero_iff_nil in E. rewrite E in X. destruct X.
  - assert (X : exists p, p < n /\ endedb (st p) = false /\ alone p (st p) st).
    { destruct (existsb (fun p => match holds (st p) with Some _ => true | None => false end) (seq 0 n)) eqn:EX.
      - apply existsb_exists in EX as (p & Hp & H). apply in_seq in Hp. exists p. split; [lia|].
        destruct (holds (st p)) eqn:Eh; [|discriminate]. split; [now destruct (st p)|left; rewrite Eh; discriminate].
      - destruct (filter (fun p => negb (endedb (st p))) (seq 0 n)) as [|p r] eqn:EF; [discriminate|].
        assert (Q : In p (filter (fun p => negb (endedb (st p))) (seq 0 n))) by (rewrite EF; now left).
        apply filter_In in Q as [Q1 Q2]. apply in_seq in Q1. exists p. split; [lia|]. split; [now apply negb_true_iff|right].
        intros q _. destruct (Nat.lt_ge_cases q n) as [Hq|Hq]; [|now apply F]. destruct (holds (st q)) eqn:Eh; [|reflexivity].
        assert (Z : existsb (fun p => match holds (st p) with Some _ => true | None => false end) (seq 0 n) = true); [|congruence].
        apply existsb_exists. exists q. rewrite in_seq, Eh. split; [lia|reflexivity]. }
    destruct X as (p & Hp & NE & AL). destruct (fin_all p Hp (st p) d st eq_refl AL) as (l & L1 & L2).
    destruct (play l (d, st)) as [d1 st1] eqn:EP. cbn [snd] in L1, L2.
    destruct (IH d1 st1) as (l2 & H2).
    + intros q Hq. rewrite L2 by lia. now apply F.
    + apply endedb_spec in L1.
      assert (G : forall a len, a <= p < a + len -> S (length (filter (fun q => negb (endedb (st1 q))) (seq a len))) = length (filter (fun q => negb (endedb (st q))) (seq a len))).
      { intros a len. revert a. induction len as [|len IHl]; intros a Ha; [lia|]. cbn [seq filter].
        destruct (Nat.eq_dec a p) as [->|N].
        - rewrite L1, NE. cbn [negb length]. f_equal. f_equal. apply filter_ext_in. intros q Hq. apply in_seq in Hq. rewrite L2 by lia. reflexivity.
        - rewrite (L2 a) by exact N. destruct (negb (endedb (st a))); cbn [length]; rewrite IHl by lia; reflexivity. }
      specialize (G 0 n ltac:(lia)). lia.
    + exists (l ++ l2). unfold play in *. rewrite fold_left_app, EP. exact H2.
Qed.
Lemma far_start jobs l : forall d st, (forall q, n <= q -> st q = Start (jobs q)) -> forall q, n <= q -> snd (play l (d, st)) q = Start (jobs q).
Proof.
  induction l as [|e l IH]; intros d st F q Hq; [now apply F|]. unfold play in *. cbn [fold_left].
  destruct (happen n ls e (d, st)) as [d1 st1] eqn:E. apply IH; [|exact Hq]. clear q Hq. intros q Hq.
  assert (U : forall p c, p < n -> upd st p c q = Start (jobs q)) by (intros p c Hp; rewrite upd_other by lia; now apply F).
  destruct e as [p|p]; cbn [happen] in E.
  - destruct (Nat.ltb_spec p n) as [Hp|Hp]; [|injection E as <- <-; now apply F].
    destruct (pc_step n ls st p d) as [[d2 c]|]; injection E as <- <-; [now apply U|now apply F].
  - destruct (Nat.ltb_spec p n) as [Hp|Hp].
    + destruct (st p); injection E as <- <-; now (apply U || apply F).
    + destruct (st p); injection E as <- <-; now apply F.
Qed.
End Progress.
