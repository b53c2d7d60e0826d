From Verif Require Import Base WithSync WithSyncSpec.

Section P.
Context {C A V : Type}.
Variable driver : method -> A -> C -> outcome V * C.
Variable join_error : error.

Lemma dummy_all m : dummy_method (V:=V) m = Err PoisonedConnection.
Proof. destruct m; reflexivity. Qed.

Lemma adapter_runs {T} (f : closure A V T) : forall c o s,
  on_adapter driver f (Driver c) = (o, s) <-> exists c', s = Driver c' /\ runs driver f c o c'.
Proof.
  induction f as [o0|m a k IH]; intros c o s; cbn.
  - split.
    + intros E; injection E as <- <-. exists c. split; [reflexivity|constructor].
    + intros (c' & -> & R). inversion R; subst. reflexivity.
  - destruct (driver m a c) as [r c1] eqn:Ed. rewrite IH. split; intros (c' & E & R); exists c'; split; auto.
    + eapply runs_call; eassumption.
    + inversion R as [|? ? ? ? r' c1' ? ? Ed' R']; subst. rewrite Ed in Ed'. injection Ed' as <- <-. exact R'.
Qed.

Lemma adapter_dummy {T} (f : closure A V T) : forall o s,
  on_adapter driver f Dummy = (o, s) <-> s = Dummy /\ refused f o.
Proof.
  induction f as [o0|m a k IH]; intros o s; cbn.
  - split.
    + intros E; injection E as <- <-. split; [reflexivity|constructor].
    + intros (-> & R). inversion R; subst. reflexivity.
  - rewrite dummy_all, IH. split; intros (-> & R); split; auto.
    + constructor. exact R.
    + inversion R; subst. assumption.
Qed.

Lemma dummy_stays us : forall rs s, use_all driver join_error us Dummy = (rs, s) -> s = Dummy.
Proof.
  induction us as [|u us IH]; cbn; intros rs s E.
  - injection E as _ <-. reflexivity.
  - destruct (use_once driver join_error u Dummy) as [r s1] eqn:Eu.
    assert (s1 = Dummy).
    { destruct u as [m a|ev f]; cbn in Eu; [injection Eu as _ <-; reflexivity|].
      destruct ev; cbn in Eu; try (injection Eu as _ <-; reflexivity).
      destruct (on_adapter driver f Dummy) as [o s'] eqn:Ea. apply adapter_dummy in Ea. destruct Ea as [-> _].
      destruct o; injection Eu as _ <-; reflexivity. }
    subst s1. destruct (use_all driver join_error us Dummy) as [rs1 s2] eqn:Er.
    injection E as _ <-. eapply IH. reflexivity.
Qed.
End P.
