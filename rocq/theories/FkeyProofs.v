(** Proofs about keys. *)
From Verif Require Import Base SqlVal Time Conv ConvSpec ConvProofs Fkey FkeySpec.

Local Arguments f32_to_f64 : simpl never.
Local Arguments f64_to_f32 : simpl never.
Local Arguments wrap : simpl never.
Local Arguments parse_uuid : simpl never.

(** ** AutoPk *)
Section Auto.
  Context {P : Type}.
  Variable d : pktype P.
  Hypothesis plain : forall p, pk_is_valid d p = true.

  Lemma auto_valid k : pk_is_valid (autopk d) k = true <-> exists p, k = Some p.
  Proof. destruct k as [p|]; cbn; [rewrite plain; split; eauto|]. split; [discriminate|]. now intros (p & [=]). Qed.
  Lemma auto_eq a b : pk_eqb (autopk d) a b = true <-> exists x y, a = Some x /\ b = Some y /\ pk_eqb d x y = true.
  Proof.
    destruct a as [x|], b as [y|]; cbn; rewrite ?plain; cbn.
    - split; [intros; eauto|]. intros (u & v & [= <-] & [= <-] & E). exact E.
    - split; [discriminate|]. intros (u & v & _ & [=] & _).
    - split; [discriminate|]. intros (u & v & [=] & _).
    - split; [discriminate|]. intros (u & v & [=] & _).
  Qed.
  Lemma auto_eq_key a b : autopk_eq_key d a b = true <-> exists x, a = Some x /\ pk_eqb d x b = true.
  Proof.
    unfold autopk_eq_key. destruct a as [x|]; cbn; rewrite ?plain; cbn.
    - split; [intros; eauto|]. intros (u & [= <-] & E). exact E.
    - split; [discriminate|]. intros (u & [=] & _).
  Qed.
  (** The first value that converts wins. *)
  Fixpoint first_convertible (vs : list SqlVal) : option P :=
    match vs with
    | [] => None
    | v :: vs' => match pk_from d v with Ok p => Some p | _ => first_convertible vs' end
    end.
  Lemma auto_init_set k vs p : k = Some p -> fold_left (fun k v => snd (initialize (autopk d) k v)) vs k = Some p.
  Proof. intros ->. induction vs as [|v vs IH]; [reflexivity|]. cbn. unfold initialize. cbn. rewrite plain. exact IH. Qed.
  Lemma auto_init vs : fold_left (fun k v => snd (initialize (autopk d) k v)) vs None = first_convertible vs.
  Proof.
    induction vs as [|v vs IH]; [reflexivity|]. cbn [fold_left first_convertible].
    unfold initialize at 2. cbn. destruct (pk_from d v) as [p|e|]; cbn; [|exact IH|exact IH].
    now apply auto_init_set.
  Qed.
  Lemma auto_write k v : pk_to (autopk d) k = Ok v <-> exists p, k = Some p /\ pk_to d p = Ok v.
  Proof. destruct k as [p|]; cbn; [split; [eauto|now intros (q & [= <-] & E)]|]. split; [discriminate|]. now intros (q & [=] & _). Qed.
  Lemma auto_cmp (cmp : P -> P -> comparison) a b c :
    autopk_partial_cmp cmp a b = Some c <-> exists x y, a = Some x /\ b = Some y /\ cmp x y = c.
  Proof.
    destruct a as [x|], b as [y|]; cbn.
    - split; [intros [= <-]; eauto|]. now intros (u & v & [= <-] & [= <-] & <-).
    - split; [discriminate|]. now intros (u & v & _ & [=] & _).
    - split; [discriminate|]. now intros (u & v & [=] & _).
    - split; [discriminate|]. now intros (u & v & [=] & _).
  Qed.
End Auto.

(** ** Lawful key types *)

Fixpoint pk_able (t : rty) : Prop := match t with ROption _ => False | RAutoPk t => pk_able t | _ => True end.
Lemma pk_able_single t : pk_able t -> single_option t.
Proof. induction t; cbn; try tauto. intros H. split; [destruct t; cbn in *; tauto|auto]. Qed.
Lemma rust_eqb_sql t : pk_able t -> forall x y v w, to_sql t x = Ok v -> to_sql t y = Ok w -> rust_eqb t x y = sqlval_eqb v w.
Proof.
  induction t; cbn; intros A x y v u E F; try (injection E as <-; injection F as <-; reflexivity).
  - destruct (big w); injection E as <-; injection F as <-; reflexivity.
  - contradiction.
  - destruct x as [x|]; [|discriminate]. destruct y as [y|]; [|discriminate]. eauto.
Qed.
Theorem plain_lawful t : pk_able t -> lawful (plain_key t) (rust_ok t).
Proof.
  intros A. split.
  - intros p v G E. cbn in *. destruct (conv_roundtrip t (pk_able_single t A) p G) as (v' & E1 & E2). congruence.
  - intros p q v w _ _ E F. cbn in *. now apply rust_eqb_sql.
Qed.
Theorem auto_lawful {P} (d : pktype P) good : (forall p, pk_is_valid d p = true) -> lawful d good ->
  lawful (autopk d) (fun k => match k with Some p => good p | None => True end).
Proof.
  intros V [L1 L2]. split.
  - intros [p|] v G E; [|discriminate]. cbn in *. now rewrite (L1 p v G E).
  - intros [p|] [q|] v w Gp Gq E F; try discriminate. cbn in *. rewrite !V. cbn. now apply L2.
Qed.

(** ** ForeignKey *)
Section Fk.
  Context {O P : Type}.
  Variable d : pktype P.
  Variable pk_of : O -> P.
  Variable good : P -> Prop.
  Hypothesis L : lawful d good.

  Lemma from_pk_refers p f : fk_from_pk d p = Ok f -> refers_to d pk_of f p.
  Proof.
    unfold fk_from_pk. destruct (pk_to d p) as [v| |] eqn:E; cbn; try discriminate. intros [= <-].
    split; [right; discriminate|]. split; [intros o [=]|]. intros v' [= <-]. exact E.
  Qed.
  Lemma from_obj_refers o : refers_to d pk_of (fk_from_obj o) (pk_of o).
  Proof. split; [left; discriminate|]. split; [intros o' [= <-]; reflexivity|intros v [=]]. Qed.
  Lemma from_sql_refers p v f : pk_to d p = Ok v -> fk_from_sql v = Ok f -> refers_to d pk_of f p.
  Proof. intros E [= <-]. split; [right; discriminate|]. split; [intros o [=]|]. intros v' [= <-]. exact E. Qed.

  Lemma refers_key f p : good p -> refers_to d pk_of f p -> fk_pk d pk_of f = Ok p.
  Proof.
    intros G (H & Hv & Hk). unfold fk_pk. destruct (f_val f) as [o|]; [now rewrite (Hv o)|].
    destruct (f_valpk f) as [v|]; [|destruct H; congruence]. rewrite (law_back _ _ L p v G (Hk v eq_refl)). reflexivity.
  Qed.
  Lemma refers_sql f p : refers_to d pk_of f p ->
    fst (fk_ensure_valpk d pk_of f) = pk_to d p /\ refers_to d pk_of (snd (fk_ensure_valpk d pk_of f)) p
    /\ f_val (snd (fk_ensure_valpk d pk_of f)) = f_val f.
  Proof.
    intros (H & Hv & Hk). unfold fk_ensure_valpk. destruct (f_valpk f) as [v|] eqn:Ek.
    - rewrite (Hk v eq_refl). cbn [fst snd]. split; [reflexivity|]. split; [|reflexivity]. split; [now right; rewrite Ek|]. split; [exact Hv|]. intros v'. rewrite Ek. exact (Hk v').
    - destruct (f_val f) as [o|] eqn:Eo; [|destruct H; congruence]. rewrite (Hv o eq_refl).
      assert (R : refers_to d pk_of f p).
      { split; [left; now rewrite Eo|]. split; [intros o'; rewrite Eo; exact (Hv o')|intros v; now rewrite Ek]. }
      destruct (pk_to d p) as [v| |] eqn:E; cbn [fst snd f_val]; (split; [reflexivity|]).
      + split; [|now symmetry]. split; [left; cbn; discriminate|]. split; cbn; [exact Hv|]. intros v' [= <-]. exact E.
      + auto.
      + auto.
  Qed.
  Lemma refers_load f p g : good p -> answers_right pk_of g -> refers_to d pk_of f p ->
    fst (fk_load d g f) = match f_val f with Some o => Ok o | None => g p end
    /\ refers_to d pk_of (snd (fk_load d g f)) p
    /\ f_val (snd (fk_load d g f)) = match f_val f with Some o => Some o | None => match g p with Ok o => Some o | _ => None end end.
  Proof.
    intros G A R. pose proof R as (H & Hv & Hk). unfold fk_load. destruct (f_val f) as [o|] eqn:Eo.
    - cbn. auto.
    - destruct (f_valpk f) as [v|] eqn:Ek; [|destruct H; congruence].
      rewrite (law_back _ _ L p v G (Hk v eq_refl)).
      destruct (g p) as [o| |] eqn:Eg; cbn; (split; [reflexivity|]); (split; [|assumption || reflexivity]).
      + split; [left; discriminate|]. split; cbn; [intros o' [= <-]; eapply A; exact Eg|]. intros v' [= <-]. exact (Hk v eq_refl).
      + exact R.
      + exact R.
  Qed.
  Lemma refers_eq f p q : good p -> good q -> refers_to d pk_of f p ->
    (f_val f <> None \/ exists w, pk_to d q = Ok w) -> fk_eq d pk_of f q = Ok (pk_eqb d p q).
  Proof.
    intros Gp Gq (H & Hv & Hk) Q. unfold fk_eq. destruct (f_val f) as [o|]; [now rewrite (Hv o)|].
    destruct (f_valpk f) as [v|]; [|destruct H; congruence]. destruct Q as [Q|(w & Ew)]; [congruence|].
    rewrite Ew. cbn. f_equal. symmetry. apply (law_eq _ _ L); auto.
  Qed.

  (** Every key compared with can be written as a value. *)
  Definition op_ok (op : fk_op O P) : Prop :=
    match op with
    | OpLoad g => answers_right pk_of g
    | OpEq q => good q /\ exists w, pk_to d q = Ok w
    | _ => True
    end.
  Theorem fk_history ops : forall f p, good p -> refers_to d pk_of f p -> Forall op_ok ops ->
    fk_expected d p (f_val f) ops (fst (fk_run d pk_of ops f)) /\ refers_to d pk_of (snd (fk_run d pk_of ops f)) p.
  Proof.
    induction ops as [|op ops IH]; intros f p G R F; [split; [exact I|exact R]|].
    apply Forall_cons_iff in F as [Fo F]. cbn [fk_run].
    destruct (fk_do d pk_of op f) as [r f'] eqn:Ed.
    destruct (fk_run d pk_of ops f') as [rs f''] eqn:Er. cbn [fst snd].
    assert (X : forall g, refers_to d pk_of g p -> g = f' -> fk_expected d p (f_val g) ops rs /\ refers_to d pk_of f'' p).
    { intros g Rg ->. specialize (IH f' p G Rg F). now rewrite Er in IH. }
    destruct op; cbn [fk_do] in Ed; cbn [fk_expected op_ok] in *.
    - destruct (fk_load d db_get f) as [r0 f0] eqn:El. injection Ed as <- <-.
      destruct (refers_load f p db_get G Fo R) as (A & B & C). rewrite El in A, B, C. cbn [fst snd] in A, B, C.
      destruct (X f0 B eq_refl) as [X1 X2]. split; [|exact X2]. subst r0. rewrite C in X1. destruct (f_val f); split; auto.
    - injection Ed as <- <-. destruct (X f R eq_refl) as [X1 X2]. split; [|exact X2]. split; [reflexivity|exact X1].
    - injection Ed as <- <-. destruct (X f R eq_refl) as [X1 X2]. split; [|exact X2]. split; [now rewrite (refers_key f p G R)|exact X1].
    - destruct (fk_ensure_valpk d pk_of f) as [r0 f0] eqn:El. injection Ed as <- <-.
      destruct (refers_sql f p R) as (A & B & C). rewrite El in A, B, C. cbn [fst snd] in A, B, C.
      destruct (X f0 B eq_refl) as [X1 X2]. split; [|exact X2]. subst r0. rewrite C in X1. split; auto.
    - injection Ed as <- <-. destruct (X f R eq_refl) as [X1 X2]. split; [|exact X2]. split; [reflexivity|exact X1].
    - injection Ed as <- <-. destruct (X f R eq_refl) as [X1 X2]. split; [|exact X2]. split; [|exact X1].
      destruct Fo as [Gq W]. f_equal. apply refers_eq; auto.
  Qed.
  Theorem fk_equality f g p q : good p -> good q -> refers_to d pk_of f p -> refers_to d pk_of g q ->
    (f_val f <> None \/ exists w, pk_to d q = Ok w) -> fk_eq_fk d pk_of f g = Ok (pk_eqb d p q).
  Proof.
    intros Gp Gq Rf Rg W. unfold fk_eq_fk. rewrite (refers_key g q Gq Rg). cbn. now apply refers_eq.
  Qed.

  (** ** Shared between threads *)
  Definition step' := @thread_step O P d pk_of.
  Definition start (t : thread O) : Prop := t = LStart \/ t = WStart.
  Lemma nth_set {A} n : forall (l : list A) x m, n < List.length l ->
    nth_error (set_nth n x l) m = if Nat.eqb m n then Some x else nth_error l m.
  Proof.
    induction n as [|n IH]; intros [|y l] x m H; cbn in H; try lia.
    - destruct m; reflexivity.
    - destruct m; [reflexivity|]. cbn. apply IH. lia.
  Qed.
  Lemma nth_error_in_range {A} (l : list A) n x : nth_error l n = Some x -> n < List.length l.
  Proof. intros H. apply nth_error_Some. congruence. Qed.

  (** What holds of every thread: a stored or returned object is the one in the cell. *)
  Definition t_inv (f : fkey O) (t : thread O) : Prop :=
    match t with
    | LStored => f_val f <> None
    | LDone (Ok o) => f_val f = Some o
    | WStored => f_valpk f <> None
    | WDone (Ok v) => f_valpk f = Some v
    | _ => True
    end.
  Definition grows (f f' : fkey O) : Prop :=
    (forall o, f_val f = Some o -> f_val f' = Some o) /\ (forall v, f_valpk f = Some v -> f_valpk f' = Some v).
  Lemma t_inv_grows f f' t : grows f f' -> t_inv f t -> t_inv f' t.
  Proof.
    intros [G1 G2]. destruct t; cbn; auto.
    - destruct (f_val f) as [o|]; [|congruence]. rewrite (G1 o eq_refl). congruence.
    - destruct r; auto.
    - destruct (f_valpk f) as [o|]; [|congruence]. rewrite (G2 o eq_refl). congruence.
    - destruct r; auto.
  Qed.
  Lemma step_grows a f t : grows f (fst (step' a f t)).
  Proof.
    unfold step'. destruct t; cbn; try (split; auto; fail);
    repeat match goal with |- context [match ?x with _ => _ end] => destruct x eqn:? end; cbn; split; auto; congruence.
  Qed.
  Lemma step_inv a f t : t_inv f t -> t_inv (fst (step' a f t)) (snd (step' a f t)).
  Proof.
    unfold step'. destruct t; cbn; auto;
    repeat match goal with |- context [match ?x with _ => _ end] => destruct x eqn:? end; cbn; auto; congruence.
  Qed.
  Theorem threads_inv sched : forall f ts, (forall i t, nth_error ts i = Some t -> t_inv f t) ->
    let (f', ts') := run_threads d pk_of sched f ts in
    grows f f' /\ forall i t, nth_error ts' i = Some t -> t_inv f' t.
  Proof.
    induction sched as [|[i a] sched IH]; intros f ts H; cbn [run_threads]; [split; [split; auto|exact H]|].
    destruct (nth_error ts i) as [t|] eqn:Et; [|apply IH, H].
    pose proof (step_grows a f t) as Gr. pose proof (step_inv a f t (H i t Et)) as In. unfold step' in *.
    destruct (thread_step d pk_of a f t) as [f1 t1]. cbn [fst snd] in *.
    specialize (IH f1 (set_nth i t1 ts)).
    destruct (run_threads d pk_of sched f1 (set_nth i t1 ts)) as [f2 ts2].
    destruct IH as [G2 I2].
    - intros j u E. rewrite nth_set in E by (eapply nth_error_in_range; eassumption).
      destruct (Nat.eqb_spec j i); [injection E as <-; exact In|]. eapply t_inv_grows; [exact Gr|]. eapply H; exact E.
    - split; [|exact I2]. destruct Gr as [A B], G2 as [C D]. split; auto.
  Qed.

  (** A foreign key that has its key stored never makes a thread panic, unless the
      database call does. *)
  Definition t_safe (t : thread O) : Prop :=
    match t with LDone Panic | WDone Panic | WEmpty | WHave _ => False | _ => True end.
  Theorem threads_safe sched : forall f ts v p, f_valpk f = Some v -> pk_from d v = Ok p ->
    Forall (fun ia => snd ia <> Panic) sched ->
    (forall i t, nth_error ts i = Some t -> t_safe t /\ t_inv f t) ->
    forall i t, nth_error (snd (run_threads d pk_of sched f ts)) i = Some t -> t_safe t.
  Proof.
    induction sched as [|[i a] sched IH]; intros f ts v p Ev Ep Fa H; cbn [run_threads]; [intros j t Ht; apply (H j t Ht)|].
    apply Forall_cons_iff in Fa as [Fa1 Fa].
    destruct (nth_error ts i) as [t|] eqn:Et; [|eapply IH; eassumption].
    destruct (H i t Et) as [Hs Hi].
    pose proof (step_grows a f t) as Gr. pose proof (step_inv a f t Hi) as In. unfold step' in *.
    assert (Sf : t_safe (snd (thread_step d pk_of a f t))).
    { cbn [snd] in Fa1. destruct t; cbn in *; try contradiction; try exact Hs; rewrite ?Ev, ?Ep;
      repeat match goal with |- context [match ?x with _ => _ end] => destruct x eqn:? end; cbn; auto; congruence. }
    destruct (thread_step d pk_of a f t) as [f1 t1] eqn:Es. cbn [fst snd] in *.
    eapply IH; [apply Gr; exact Ev|exact Ep|exact Fa|].
    intros j u E. rewrite nth_set in E by (eapply nth_error_in_range; eassumption).
    destruct (Nat.eqb_spec j i); [injection E as <-; auto|].
    destruct (H j u E). split; [assumption|]. eapply t_inv_grows; eassumption.
  Qed.
  (** Loads alone never panic on a key that has an object or a stored key. *)
  Definition t_load (t : thread O) : Prop :=
    match t with LStart | LEmpty | LHave _ | LStored => True | LDone r => r <> Panic | _ => False end.
  Theorem threads_load sched : forall f ts,
    (f_val f <> None \/ exists v p, f_valpk f = Some v /\ pk_from d v = Ok p) ->
    Forall (fun ia => snd ia <> Panic) sched ->
    (forall i t, nth_error ts i = Some t -> t_load t /\ t_inv f t /\ (t = LEmpty -> exists v p, f_valpk f = Some v /\ pk_from d v = Ok p)) ->
    forall i t, nth_error (snd (run_threads d pk_of sched f ts)) i = Some t -> t_load t.
  Proof.
    induction sched as [|[i a] sched IH]; intros f ts Hf Fa H; cbn [run_threads]; [intros j t Ht; apply (H j t Ht)|].
    apply Forall_cons_iff in Fa as [Fa1 Fa].
    destruct (nth_error ts i) as [t|] eqn:Et; [|eapply IH; eassumption].
    destruct (H i t Et) as (Hs & Hi & He).
    pose proof (step_grows a f t) as Gr. pose proof (step_inv a f t Hi) as In. unfold step' in *.
    assert (Sf : t_load (snd (thread_step d pk_of a f t))).
    { cbn [snd] in Fa1. destruct t; cbn in *; try contradiction; try exact Hs.
      - destruct (f_val f); cbn; [discriminate|exact I].
      - destruct (He eq_refl) as (v & p & -> & ->). destruct a; cbn; congruence || exact I.
      - destruct (f_val f); exact I.
      - destruct (f_val f); cbn; congruence. }
    assert (Se : snd (thread_step d pk_of a f t) = LEmpty -> exists v p, f_valpk f = Some v /\ pk_from d v = Ok p).
    { intros E. destruct t; cbn in E; try discriminate E; try contradiction;
        try (revert E; repeat match goal with |- context [match ?x with _ => _ end] => destruct x eqn:? end; cbn; discriminate).
      destruct (f_val f) eqn:Ef; [discriminate|]. destruct Hf as [Hf|Hf]; [congruence|exact Hf]. }
    destruct (thread_step d pk_of a f t) as [f1 t1] eqn:Es. cbn [fst snd] in *. destruct Gr as [G1 G2].
    assert (K : forall v p, f_valpk f = Some v -> pk_from d v = Ok p -> exists v p, f_valpk f1 = Some v /\ pk_from d v = Ok p).
    { intros v p E1 E2. exists v, p. auto. }
    eapply IH.
    - destruct Hf as [Hf|(v & p & E1 & E2)]; [left|right; eauto]. destruct (f_val f) as [o|]; [|congruence]. rewrite (G1 o eq_refl). discriminate.
    - exact Fa.
    - intros j u E. rewrite nth_set in E by (eapply nth_error_in_range; eassumption).
      destruct (Nat.eqb_spec j i).
      + injection E as <-. split; [exact Sf|]. split; [exact In|]. intros E. destruct (Se E) as (v & p & E1 & E2). eauto.
      + destruct (H j u E) as (A & B & C). split; [exact A|]. split; [eapply t_inv_grows; [split; eassumption|exact B]|].
        intros E3. destruct (C E3) as (v & p & E1 & E2). eauto.
  Qed.
End Fk.
