(** Shared vocabulary of the model: outcomes of Rust functions, Rust strings,
    and [BTreeMap]/[BTreeSet] as strictly sorted lists.

    Nothing in this file models butane itself; it models the pieces of the Rust
    standard library that butane's code is written in. *)
From Coq Require Export String Ascii Bool Arith ZArith Lia Sorting.Sorted List.
Export ListNotations.
#[global] Open Scope string_scope.
#[global] Open Scope list_scope.

(** * Outcomes

    A Rust function returning [Result<T>] has three outcomes: a value, an error,
    or a panic.  Functions that can panic are modelled with [Panic]; it is never
    replaced by a default value. The error payloads are those of
    butane_core/src/lib.rs:242-336 that the modelled code produces. *)
Inductive error :=
| NoSuchObject
| BoundsError
| CannotConvertSqlVal
| SqlResultTypeMismatch
| UnknownSqlType (k : string)
| ValueNotLoaded
| ValueNotSaved
| NotInitialized
| MigrationError (m : string)
| UriParse
| UnknownBackend (b : string)
| UnknownConnectString (s : string)
| OutOfRange
| Internal (m : string)
| CannotResolveType (k : string)
| InvalidAuto (c : string)
| NoCustomDefault
| UnknownEnumVariant (v : string)
| IncompatibleCustomT
| LiteralForCustomUnsupported
| PoisonedConnection
| SerdeJson
| IOError
| DbError (n : nat)
| TableNotFound (t : string)
| ColumnNotFound (t c : string)
| CrossbeamChannel.

Inductive outcome (A : Type) :=
| Ok (a : A)
| Err (e : error)
| Panic.
Arguments Ok {A} a.
Arguments Err {A} e.
Arguments Panic {A}.

Definition obind {A B} (x : outcome A) (f : A -> outcome B) : outcome B :=
  match x with Ok a => f a | Err e => Err e | Panic => Panic end.
Notation "'do' x <- e ; f" := (obind e (fun x => f))
  (at level 200, x pattern, right associativity).
Definition omap {A B} (f : A -> B) (x : outcome A) : outcome B :=
  obind x (fun a => Ok (f a)).

(** * Ordered keys *)
Class OrdKey (K : Type) := {
  kcmp : K -> K -> comparison;
  kcmp_eq : forall a b, kcmp a b = Eq <-> a = b;
  kcmp_antisym : forall a b, kcmp b a = CompOpp (kcmp a b);
  kcmp_trans : forall a b c, kcmp a b = Lt -> kcmp b c = Lt -> kcmp a c = Lt
}.

Definition klt {K} `{OrdKey K} (a b : K) : Prop := kcmp a b = Lt.

Lemma ascii_cmp_eq a b : Ascii.compare a b = Eq <-> a = b.
Proof.
  unfold Ascii.compare. rewrite N.compare_eq_iff. split; [|congruence].
  intros H. rewrite <- (ascii_N_embedding a), <- (ascii_N_embedding b). congruence.
Qed.
Lemma ascii_cmp_anti a b : Ascii.compare b a = CompOpp (Ascii.compare a b).
Proof. unfold Ascii.compare. apply N.compare_antisym. Qed.
Lemma ascii_cmp_trans a b c :
  Ascii.compare a b = Lt -> Ascii.compare b c = Lt -> Ascii.compare a c = Lt.
Proof. unfold Ascii.compare. rewrite !N.compare_lt_iff. lia. Qed.

(** Rust compares strings bytewise, lexicographically; so does [String.compare]. *)
Lemma str_cmp_eq (a b : string) : String.compare a b = Eq <-> a = b.
Proof.
  revert b; induction a as [|x a IH]; intros [|y b]; cbn; try (split; congruence).
  destruct (Ascii.compare x y) eqn:E.
  - apply ascii_cmp_eq in E; subst y. rewrite IH. split; congruence.
  - split; [congruence|]. intros H; injection H as -> ->.
    pose proof (proj2 (ascii_cmp_eq y y) eq_refl); congruence.
  - split; [congruence|]. intros H; injection H as -> ->.
    pose proof (proj2 (ascii_cmp_eq y y) eq_refl); congruence.
Qed.
Lemma str_cmp_anti (a b : string) : String.compare b a = CompOpp (String.compare a b).
Proof.
  revert b; induction a as [|x a IH]; intros [|y b]; cbn; auto.
  rewrite ascii_cmp_anti. destruct (Ascii.compare x y); cbn; auto.
Qed.
Lemma str_cmp_trans (a b c : string) :
  String.compare a b = Lt -> String.compare b c = Lt -> String.compare a c = Lt.
Proof.
  revert b c; induction a as [|x a IH]; intros [|y b] [|z c]; cbn; try congruence.
  destruct (Ascii.compare x y) eqn:E1; destruct (Ascii.compare y z) eqn:E2; try congruence.
  - apply ascii_cmp_eq in E1, E2; subst. rewrite (proj2 (ascii_cmp_eq z z) eq_refl). apply IH.
  - apply ascii_cmp_eq in E1; subst. rewrite E2. auto.
  - apply ascii_cmp_eq in E2; subst. rewrite E1. auto.
  - intros _ _. rewrite (ascii_cmp_trans _ _ _ E1 E2). auto.
Qed.
#[global] Instance string_ord : OrdKey string :=
  {| kcmp := String.compare; kcmp_eq := str_cmp_eq;
     kcmp_antisym := str_cmp_anti; kcmp_trans := str_cmp_trans |}.

Section Ordered.
  Context {K : Type} `{OK : OrdKey K}.

  Definition keqb (a b : K) : bool := match kcmp a b with Eq => true | _ => false end.

  Lemma kcmp_refl a : kcmp a a = Eq.
  Proof. apply kcmp_eq; reflexivity. Qed.
  Lemma klt_irrefl a : ~ klt a a.
  Proof. unfold klt; rewrite kcmp_refl; congruence. Qed.
  Lemma klt_trans a b c : klt a b -> klt b c -> klt a c.
  Proof. apply kcmp_trans. Qed.
  Lemma kcmp_gt a b : kcmp a b = Gt <-> klt b a.
  Proof. unfold klt; rewrite (kcmp_antisym a b); destruct (kcmp a b); cbn; split; congruence. Qed.
  Lemma klt_asym a b : klt a b -> ~ klt b a.
  Proof. intros H1 H2; exact (klt_irrefl a (klt_trans _ _ _ H1 H2)). Qed.
  Lemma keqb_spec a b : reflect (a = b) (keqb a b).
  Proof.
    unfold keqb; destruct (kcmp a b) eqn:E; constructor.
    - apply kcmp_eq; exact E.
    - intros ->; rewrite kcmp_refl in E; congruence.
    - intros ->; rewrite kcmp_refl in E; congruence.
  Qed.
  Lemma keqb_refl a : keqb a a = true.
  Proof. unfold keqb; rewrite kcmp_refl; reflexivity. Qed.
  Lemma keqb_eq a b : keqb a b = true <-> a = b.
  Proof. destruct (keqb_spec a b); split; congruence. Qed.
  Lemma keqb_neq a b : keqb a b = false <-> a <> b.
  Proof. destruct (keqb_spec a b); split; congruence. Qed.
  Lemma keqb_sym a b : keqb a b = keqb b a.
  Proof. destruct (keqb_spec a b), (keqb_spec b a); congruence. Qed.
  Lemma k_dec (a b : K) : {a = b} + {a <> b}.
  Proof. destruct (keqb_spec a b); [left|right]; assumption. Qed.

  Definition kmem (k : K) (l : list K) : bool := existsb (keqb k) l.
  Lemma kmem_In k l : kmem k l = true <-> In k l.
  Proof.
    unfold kmem; rewrite existsb_exists; split.
    - intros (x & Hx & E); apply keqb_eq in E; subst; assumption.
    - intros Hk; exists k; split; [assumption|apply keqb_refl].
  Qed.
  Lemma kmem_not_In k l : kmem k l = false <-> ~ In k l.
  Proof. rewrite <- kmem_In; destruct (kmem k l); split; congruence. Qed.

  (** ** [BTreeSet]: strictly sorted lists. *)
  Fixpoint sinsert (k : K) (l : list K) : list K :=
    match l with
    | [] => [k]
    | x :: r => match kcmp k x with
                | Lt => k :: x :: r
                | Eq => x :: r
                | Gt => x :: sinsert k r
                end
    end.
  Definition set_of_list (l : list K) : list K := fold_right sinsert [] l.
  Definition sdiff (a b : list K) : list K := filter (fun k => negb (kmem k b)) a.
  Definition sinter (a b : list K) : list K := filter (fun k => kmem k b) a.

  Lemma sinsert_In k l x : In x (sinsert k l) <-> x = k \/ In x l.
  Proof.
    induction l as [|y r IH]; cbn.
    - intuition.
    - destruct (kcmp k y) eqn:E; cbn.
      + apply kcmp_eq in E; subst; intuition.
      + intuition.
      + rewrite IH; intuition.
  Qed.
  Lemma sinsert_sorted k l : StronglySorted klt l -> StronglySorted klt (sinsert k l).
  Proof.
    induction l as [|y r IH]; intros S; cbn.
    - repeat constructor.
    - inversion S as [|? ? S' F]; subst. destruct (kcmp k y) eqn:E.
      + assumption.
      + constructor; [assumption|]. constructor; [exact E|].
        rewrite Forall_forall in *. intros z Hz. eapply klt_trans; [exact E|auto].
      + constructor; [auto|]. rewrite Forall_forall in *. intros z Hz.
        apply sinsert_In in Hz as [->|Hz]; [apply kcmp_gt; exact E|auto].
  Qed.
  Lemma set_of_list_In l x : In x (set_of_list l) <-> In x l.
  Proof.
    induction l as [|y r IH]; cbn; [tauto|].
    rewrite sinsert_In, IH; intuition.
  Qed.
  Lemma set_of_list_sorted l : StronglySorted klt (set_of_list l).
  Proof. induction l as [|y r IH]; cbn; [constructor|apply sinsert_sorted; exact IH]. Qed.
  Lemma sorted_NoDup l : StronglySorted klt l -> NoDup l.
  Proof.
    induction 1 as [|a l S IH F]; constructor; [|assumption].
    intros Ha. rewrite Forall_forall in F. exact (klt_irrefl a (F a Ha)).
  Qed.
  Lemma sorted_ext l1 l2 :
    StronglySorted klt l1 -> StronglySorted klt l2 ->
    (forall x, In x l1 <-> In x l2) -> l1 = l2.
  Proof.
    intros S1; revert l2; induction S1 as [|a l1 S1 IH F1]; intros l2 S2 E.
    - destruct l2 as [|b l2]; [reflexivity|]. destruct (proj2 (E b) (or_introl eq_refl)).
    - destruct S2 as [|b l2 S2 F2].
      + destruct (proj1 (E a) (or_introl eq_refl)).
      + rewrite Forall_forall in F1, F2.
        assert (a = b) as ->.
        { destruct (proj1 (E a) (or_introl eq_refl)) as [->|Ha]; [reflexivity|].
          destruct (proj2 (E b) (or_introl eq_refl)) as [->|Hb]; [reflexivity|].
          exfalso; exact (klt_asym _ _ (F1 _ Hb) (F2 _ Ha)). }
        f_equal. apply IH; [assumption|]. intros x; split; intros Hx.
        * destruct (proj1 (E x) (or_intror Hx)) as [->|]; [|assumption].
          exfalso; exact (klt_irrefl _ (F1 _ Hx)).
        * destruct (proj2 (E x) (or_intror Hx)) as [->|]; [|assumption].
          exfalso; exact (klt_irrefl _ (F2 _ Hx)).
  Qed.
  Lemma filter_sorted p l : StronglySorted klt l -> StronglySorted klt (filter p l).
  Proof.
    induction 1 as [|a l S IH F]; cbn; [constructor|].
    destruct (p a); [|assumption]. constructor; [assumption|].
    rewrite Forall_forall in *. intros x Hx. apply filter_In in Hx as [Hx _]. auto.
  Qed.
  Lemma sdiff_In a b x : In x (sdiff a b) <-> In x a /\ ~ In x b.
  Proof. unfold sdiff. rewrite filter_In, negb_true_iff, kmem_not_In. tauto. Qed.
  Lemma sinter_In a b x : In x (sinter a b) <-> In x a /\ In x b.
  Proof. unfold sinter. rewrite filter_In, kmem_In. tauto. Qed.

  (** ** [BTreeMap]: association lists with strictly sorted keys. *)
  Context {V : Type}.
  Definition smap := list (K * V).
  Fixpoint mget (k : K) (m : smap) : option V :=
    match m with
    | [] => None
    | (x, v) :: r => if keqb k x then Some v else mget k r
    end.
  (** [BTreeMap::insert]: replaces an existing binding. *)
  Fixpoint mput (k : K) (v : V) (m : smap) : smap :=
    match m with
    | [] => [(k, v)]
    | (x, w) :: r => match kcmp k x with
                     | Lt => (k, v) :: (x, w) :: r
                     | Eq => (k, v) :: r
                     | Gt => (x, w) :: mput k v r
                     end
    end.
  (** [BTreeMap::remove]. *)
  Definition mdel (k : K) (m : smap) : smap :=
    filter (fun p => negb (keqb k (fst p))) m.
  Definition mkeys (m : smap) : list K := map fst m.
  Definition mvals (m : smap) : list V := map snd m.
  Definition msorted (m : smap) : Prop := StronglySorted klt (mkeys m).

  Lemma mget_In k v m : mget k m = Some v -> In (k, v) m.
  Proof.
    induction m as [|[x w] r IH]; cbn; [congruence|].
    destruct (keqb_spec k x) as [->|N]; [|auto]. intros [= ->]; auto.
  Qed.
  Lemma mget_None k m : mget k m = None <-> ~ In k (mkeys m).
  Proof.
    induction m as [|[x w] r IH]; cbn; [tauto|].
    destruct (keqb_spec k x) as [->|N].
    - split; [congruence|]. intros H; exfalso; apply H; auto.
    - rewrite IH. intuition congruence.
  Qed.
  Lemma mget_keys k m : In k (mkeys m) <-> exists v, mget k m = Some v.
  Proof.
    destruct (mget k m) as [v|] eqn:E; split.
    - eauto.
    - intros _. apply mget_In in E. apply (in_map fst) in E. exact E.
    - intros Hk. apply mget_None in E. contradiction.
    - intros [v Hv]; congruence.
  Qed.
  Lemma In_mget k v m : msorted m -> In (k, v) m -> mget k m = Some v.
  Proof.
    unfold msorted. induction m as [|[x w] r IH]; cbn; [tauto|].
    intros S Hin. inversion S as [|? ? S' F]; subst.
    destruct (keqb_spec k x) as [->|N].
    - destruct Hin as [[= ->]|Hin]; [reflexivity|].
      apply (in_map fst) in Hin. rewrite Forall_forall in F.
      exfalso; exact (klt_irrefl _ (F _ Hin)).
    - destruct Hin as [[= -> ->]|Hin]; [congruence|]. auto.
  Qed.
  Lemma mput_keys k v m x : In x (mkeys (mput k v m)) <-> x = k \/ In x (mkeys m).
  Proof.
    induction m as [|[y w] r IH]; cbn; [intuition|].
    destruct (kcmp k y) eqn:E; cbn.
    - apply kcmp_eq in E; subst. intuition.
    - intuition.
    - rewrite IH. intuition.
  Qed.
  Lemma mput_sorted k v m : msorted m -> msorted (mput k v m).
  Proof.
    unfold msorted. induction m as [|[y w] r IH]; intros S; cbn.
    - repeat constructor.
    - inversion S as [|? ? S' F]; subst. destruct (kcmp k y) eqn:E; cbn.
      + apply kcmp_eq in E; subst. constructor; assumption.
      + constructor; [exact S|]. constructor; [exact E|].
        rewrite Forall_forall in *. intros z Hz. eapply klt_trans; [exact E|auto].
      + constructor; [auto|]. rewrite Forall_forall in *. intros z Hz.
        apply mput_keys in Hz as [->|Hz]; [apply kcmp_gt; exact E|auto].
  Qed.
  Lemma mget_mput k v m x : msorted m ->
    mget x (mput k v m) = if keqb x k then Some v else mget x m.
  Proof.
    unfold msorted. induction m as [|[y w] r IH]; intros S; cbn; [reflexivity|].
    inversion S as [|? ? S' F]; subst. destruct (kcmp k y) eqn:E; cbn.
    - apply kcmp_eq in E; subst. destruct (keqb_spec x y); reflexivity.
    - reflexivity.
    - rewrite IH by assumption. destruct (keqb_spec x y) as [->|N]; [|reflexivity].
      destruct (keqb_spec y k) as [->|N]; [|reflexivity].
      rewrite kcmp_refl in E; congruence.
  Qed.
  Lemma mget_mdel k m x : mget x (mdel k m) = if keqb x k then None else mget x m.
  Proof.
    unfold mdel. induction m as [|[y w] r IH]; cbn; [destruct (keqb x k); reflexivity|].
    destruct (keqb_spec k y) as [->|N]; cbn.
    - rewrite IH. destruct (keqb_spec x y); reflexivity.
    - rewrite IH. destruct (keqb_spec x y) as [->|N'].
      + destruct (keqb_spec y k); [congruence|reflexivity].
      + reflexivity.
  Qed.
  Lemma mdel_sorted k m : msorted m -> msorted (mdel k m).
  Proof.
    unfold msorted, mdel, mkeys. induction m as [|[y w] r IH]; cbn; intros S; [constructor|].
    inversion S as [|? ? S' F]; subst. destruct (keqb_spec k y) as [->|N]; cbn; [auto|].
    constructor; [auto|]. rewrite Forall_forall in *. intros z Hz.
    apply in_map_iff in Hz as (p & <- & Hp). apply filter_In in Hp as [Hp _].
    apply F, in_map, Hp.
  Qed.
  Lemma mkeys_ext m1 m2 : msorted m1 -> msorted m2 ->
    (forall k, mget k m1 = mget k m2) -> m1 = m2.
  Proof.
    unfold msorted. revert m2; induction m1 as [|[a v] m1 IH]; intros m2 S1 S2 E.
    - destruct m2 as [|[b w] m2]; [reflexivity|].
      specialize (E b); cbn in E. rewrite keqb_refl in E. congruence.
    - destruct m2 as [|[b w] m2].
      { specialize (E a); cbn in E. rewrite keqb_refl in E. congruence. }
      cbn in S1, S2. inversion S1 as [|? ? S1' F1]; inversion S2 as [|? ? S2' F2]; subst.
      rewrite Forall_forall in F1, F2.
      assert (Hab : a = b).
      { pose proof (E a) as Ea; pose proof (E b) as Eb; cbn in Ea, Eb.
        rewrite keqb_refl in Ea, Eb. destruct (keqb_spec a b) as [|N]; [assumption|].
        destruct (keqb_spec b a) as [|N']; [congruence|].
        assert (Ha : In a (mkeys m2)) by (apply mget_keys; eauto).
        assert (Hb : In b (mkeys m1)) by (apply mget_keys; eauto).
        exfalso; exact (klt_asym _ _ (F1 _ Hb) (F2 _ Ha)). }
      subst b. pose proof (E a) as Ea; cbn in Ea. rewrite keqb_refl in Ea.
      injection Ea as ->. f_equal. apply IH; [assumption..|].
      intros k. specialize (E k); cbn in E. destruct (keqb_spec k a) as [Eka|N]; [|exact E].
      rewrite Eka. clear E. rewrite (proj2 (mget_None a m1)), (proj2 (mget_None a m2)); [reflexivity| |].
      + intros Ha; exact (klt_irrefl _ (F2 _ Ha)).
      + intros Ha; exact (klt_irrefl _ (F1 _ Ha)).
  Qed.
  Lemma msorted_nil : msorted [].
  Proof. constructor. Qed.
End Ordered.
Arguments smap : clear implicits.
Arguments kmem : simpl never.
Lemma kmem_cons {K} `{OrdKey K} (k x : K) l : kmem k (x :: l) = keqb k x || kmem k l.
Proof. reflexivity. Qed.
Lemma kmem_nil {K} `{OrdKey K} (k : K) : kmem k [] = false.
Proof. reflexivity. Qed.

(** * Rust string helpers *)

(** [str::starts_with]. *)
Definition starts_with (s prefix : string) : bool := String.prefix prefix s.

Fixpoint rev_str_acc (s acc : string) : string :=
  match s with EmptyString => acc | String c r => rev_str_acc r (String c acc) end.
Definition rev_str (s : string) : string := rev_str_acc s "".

(** [str::ends_with]. *)
Definition ends_with (s suffix : string) : bool :=
  (String.length suffix <=? String.length s)%nat
  && String.eqb (String.substring (String.length s - String.length suffix) (String.length suffix) s) suffix.

(** [slice::join]. *)
Fixpoint join (sep : string) (l : list string) : string :=
  match l with
  | [] => ""
  | [x] => x
  | x :: r => x ++ sep ++ join sep r
  end.

Lemma str_app_assoc (a b c : string) : (a ++ (b ++ c) = (a ++ b) ++ c)%string.
Proof. induction a as [|x a IH]; cbn; [reflexivity|now rewrite IH]. Qed.
Lemma str_app_nil_r (a : string) : (a ++ "" = a)%string.
Proof. induction a as [|x a IH]; cbn; [reflexivity|now rewrite IH]. Qed.
Lemma str_app_length (a b : string) :
  String.length (a ++ b) = (String.length a + String.length b)%nat.
Proof. induction a as [|x a IH]; cbn; [reflexivity|now rewrite IH]. Qed.
Lemma str_app_inj_l (a b c : string) : (a ++ b = a ++ c)%string -> b = c.
Proof. induction a as [|x a IH]; cbn; [auto|]. intros [= H]; auto. Qed.
Lemma prefix_app (p s : string) : String.prefix p (p ++ s) = true.
Proof.
  induction p as [|c p IH]; cbn; [destruct s; reflexivity|].
  destruct (ascii_dec c c); [exact IH|congruence].
Qed.
Lemma prefix_true_iff (p s : string) : String.prefix p s = true <-> exists t, s = (p ++ t)%string.
Proof.
  split.
  - revert s; induction p as [|c p IH]; intros s H; [exists s; reflexivity|].
    destruct s as [|d s]; cbn in H; [congruence|].
    destruct (ascii_dec c d) as [->|]; [|congruence].
    destruct (IH s H) as [t ->]. exists t; reflexivity.
  - intros [t ->]. apply prefix_app.
Qed.

(** * List lemmas missing from the standard library *)
Lemma filter_true {A} (p : A -> bool) l : (forall x, In x l -> p x = true) -> filter p l = l.
Proof.
  induction l as [|x r IH]; cbn; intros H; [reflexivity|].
  rewrite H by auto. now rewrite IH by auto.
Qed.
Lemma filter_false {A} (p : A -> bool) l : (forall x, In x l -> p x = false) -> filter p l = [].
Proof.
  induction l as [|x r IH]; cbn; intros H; [reflexivity|].
  rewrite H by auto. now rewrite IH by auto.
Qed.
Lemma filter_filter {A} (p q : A -> bool) l : filter p (filter q l) = filter (fun x => q x && p x) l.
Proof.
  induction l as [|x r IH]; cbn; [reflexivity|].
  destruct (q x); cbn; [destruct (p x); now rewrite IH|exact IH].
Qed.
Lemma NoDup_app_iff {A} (l1 l2 : list A) :
  NoDup (l1 ++ l2) <-> NoDup l1 /\ NoDup l2 /\ (forall x, In x l1 -> ~ In x l2).
Proof.
  induction l1 as [|x l1 IH]; cbn.
  - split; [intros H; repeat split; auto; constructor|intros (_ & H & _); exact H].
  - split.
    + intros H. inversion H as [|? ? Hx H']; subst. apply IH in H' as (H1 & H2 & H3).
      rewrite in_app_iff in Hx. split; [constructor; tauto|]. split; [assumption|].
      intros y [->|Hy]; [tauto|auto].
    + intros (H1 & H2 & H3). inversion H1 as [|? ? Hx H1']; subst. constructor.
      * rewrite in_app_iff. intros [Hy|Hy]; [contradiction|]. exact (H3 x (or_introl eq_refl) Hy).
      * apply IH. split; [assumption|]. split; [assumption|]. auto.
Qed.
Lemma or_iff_compat_both (A B C D : Prop) : (A <-> B) -> (C <-> D) -> (A \/ C <-> B \/ D).
Proof. tauto. Qed.
Lemma NoDup_map_in {A B} (f : A -> B) l :
  NoDup l -> (forall x y, In x l -> In y l -> f x = f y -> x = y) -> NoDup (map f l).
Proof.
  induction 1 as [|a l Ha ND IH]; cbn; intros Inj; constructor.
  - rewrite in_map_iff. intros (x & E & Hx). apply Inj in E; auto. congruence.
  - apply IH. auto.
Qed.
Lemma NoDup_concat_map {A B} (f : A -> list B) l :
  NoDup l -> (forall x, In x l -> NoDup (f x)) ->
  (forall x y b, In x l -> In y l -> In b (f x) -> In b (f y) -> x = y) -> NoDup (concat (map f l)).
Proof.
  induction 1 as [|a l Ha ND IH]; cbn; intros Each Dis; [constructor|].
  apply NoDup_app_iff. split; [auto|]. split; [apply IH; eauto|].
  intros b Hb Hc. apply in_concat in Hc as (l' & Hl' & Hb'). apply in_map_iff in Hl' as (x & <- & Hx).
  assert (a = x) by eauto. congruence.
Qed.
Lemma SS_app {A} (R : A -> A -> Prop) l1 l2 :
  StronglySorted R l1 -> StronglySorted R l2 -> (forall x y, In x l1 -> In y l2 -> R x y) ->
  StronglySorted R (l1 ++ l2).
Proof.
  induction 1 as [|a l1 S IH F]; cbn; intros S2 H; [exact S2|].
  constructor; [auto|]. apply Forall_app. split; [exact F|].
  apply Forall_forall. auto.
Qed.
Lemma SS_all {A} (R : A -> A -> Prop) l : (forall x y, In x l -> In y l -> R x y) -> StronglySorted R l.
Proof.
  induction l as [|a l IH]; cbn; intros H; constructor; [auto|]. apply Forall_forall. auto.
Qed.

(** * UTF-8 (RFC 3629): which byte strings are Rust [String]s. *)
Definition byte_in (lo hi : N) (c : ascii) : bool :=
  let n := N_of_ascii c in (lo <=? n)%N && (n <=? hi)%N.
Fixpoint utf8 (s : string) : bool :=
  match s with
  | EmptyString => true
  | String a r =>
      if byte_in 0 127 a then utf8 r
      else match r with
      | String b r2 =>
          if byte_in 194 223 a then byte_in 128 191 b && utf8 r2
          else match r2 with
          | String c r3 =>
              if byte_in 224 239 a then
                (if byte_in 224 224 a then byte_in 160 191 b
                 else if byte_in 237 237 a then byte_in 128 159 b
                 else byte_in 128 191 b) && byte_in 128 191 c && utf8 r3
              else match r3 with
              | String d r4 =>
                  byte_in 240 244 a &&
                  (if byte_in 240 240 a then byte_in 144 191 b
                   else if byte_in 244 244 a then byte_in 128 143 b
                   else byte_in 128 191 b) && byte_in 128 191 c && byte_in 128 191 d && utf8 r4
              | EmptyString => false
              end
          | EmptyString => false
          end
      | EmptyString => false
      end
  end.
(** A character never starts with a continuation byte. *)
Lemma utf8_head c r : utf8 (String c r) = true -> byte_in 128 191 c = false.
Proof.
  cbn [utf8]. unfold byte_in. generalize (N_of_ascii c) as n. intros n.
  destruct ((128 <=? n)%N && (n <=? 191)%N) eqn:E; [|reflexivity].
  apply andb_true_iff in E as [E1 E2]. apply N.leb_le in E1, E2.
  assert (F : forall lo hi, (hi < 128 \/ 191 < lo)%N -> (lo <=? n)%N && (n <=? hi)%N = false).
  { intros lo hi H. apply andb_false_iff. rewrite !N.leb_gt. lia. }
  rewrite (F 0 127)%N by lia. destruct r as [|b r]; [discriminate|].
  rewrite (F 194 223)%N by lia. destruct r as [|d r]; [discriminate|].
  rewrite (F 224 239)%N by lia. destruct r as [|e r]; [discriminate|].
  rewrite (F 240 244)%N by lia. discriminate.
Qed.
