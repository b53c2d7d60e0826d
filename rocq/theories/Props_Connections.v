(** C38: transactions.  C40: synchronous code on an async connection. *)
From Verif Require Import Base Txn TxnSpec TxnProofs WithSync WithSyncSpec WithSyncProofs.
From Coq Require Import Lia.

(** * C38 *)
Section C38.
Context {D : Type}.
Variable fits : D -> bool.

(** If a transaction is never committed (it is rolled back first, or only dropped),
    none of its effects are ever visible, whatever is lost on the way. *)
Theorem C38_discarded k rt (cs : list (call D)) (w : link D) :
  no_transaction w -> commits cs = false ->
  visible (snd (whole fits k rt cs w)) = visible w.
Proof. apply discarded. Qed.

(** Nothing is visible before the commit. *)
Theorem C38_invisible k (fs : list (stmt D)) (w : link D) t w1 rs t' w2 :
  no_transaction w -> tx_begin fits k w = (Ok t, w1) ->
  tx_calls fits k (map Do fs) t w1 = (rs, t', w2) ->
  visible w2 = visible w.
Proof.
  intros O B Cl. destruct (begin_ok fits k w t w1 O B) as (Ht & Db & Op & _).
  assert (L : tx_live t = true) by (rewrite Ht; reflexivity).
  destruct (dos_in fits k fs t w1 _ rs t' w2 L Op Cl) as (_ & _ & Db2 & _). unfold visible. congruence.
Qed.

(** If the commit reports success, the effects of all the statements are visible.
    On PostgreSQL this needs that the statements succeeded. *)
Theorem C38_committed k rt (fs : list (stmt D)) more (w : link D) rs w' :
  no_transaction w ->
  whole fits k rt (map Do fs ++ Commit :: more) w = (Ok rs, w') ->
  nth_error rs (length fs) = Some (Ok tt) ->
  (k = TxPg -> all_ok (firstn (length fs) rs)) ->
  effects (visible w) fs (firstn (length fs) rs) (visible w').
Proof.
  intros O W N P.
  destruct (whole_commit fits k rt fs more w _ w' O W) as [(e & X & _)|(t & w1 & r1 & w2 & r & t3 & B & L & Cl & Cm & Dd & X)]; [discriminate|].
  injection X as X. destruct (begin_ok fits k w t w1 O B) as (_ & Db & Op & Fa & _).
  destruct (dos_in fits k fs t w1 _ r1 t w2 L Op Cl) as (_ & Len & Db2 & (x & Ox & Ef) & N1 & K1 & _).
  subst rs. rewrite <- Len in *. rewrite nth_exact in N. injection N as ->. rewrite firstn_exact in *.
  destruct (commit_db fits k t w2 x _ t3 w' L Ox Cm) as (_ & H & _).
  unfold visible. rewrite H; [exact Ef|reflexivity|].
  destruct (is_pg k) eqn:Pg; [rewrite K1; [exact Fa|apply P; destruct k; cbn in Pg; congruence]|apply N1; auto].
Qed.

(** If the commit reports an error, and the error is not a lost answer, nothing is
    visible. *)
Theorem C38_commit_failed k rt (fs : list (stmt D)) more (w : link D) rs w' e :
  no_transaction w ->
  whole fits k rt (map Do fs ++ Commit :: more) w = (Ok rs, w') ->
  nth_error rs (length fs) = Some (Err e) -> e <> DbError 2 ->
  visible w' = visible w.
Proof.
  intros O W N P.
  destruct (whole_commit fits k rt fs more w _ w' O W) as [(e' & X & _)|(t & w1 & r1 & w2 & r & t3 & B & L & Cl & Cm & Dd & X)]; [discriminate|].
  injection X as X. destruct (begin_ok fits k w t w1 O B) as (_ & Db & Op & Fa & _).
  destruct (dos_in fits k fs t w1 _ r1 t w2 L Op Cl) as (_ & Len & Db2 & (x & Ox & Ef) & _).
  subst rs. rewrite <- Len in *. rewrite nth_exact in N. injection N as ->.
  destruct (commit_db fits k t w2 x _ t3 w' L Ox Cm) as (_ & _ & _ & _ & H).
  unfold visible. rewrite (H e eq_refl P). congruence.
Qed.

(** In every case, whatever the program does with the transaction and whatever is
    lost on the way, either nothing is visible or the effects of all the statements
    before the first commit are: never some of them. *)
Theorem C38_all_or_nothing k rt (cs : list (call D)) (w : link D) o w' :
  no_transaction w -> whole fits k rt cs w = (o, w') ->
  visible w' = visible w \/
  (commits cs = true /\
   exists rs, o = Ok rs /\
     effects (visible w) (statements_before cs) (firstn (length (statements_before cs)) rs) (visible w') /\
     (nth_error rs (length (statements_before cs)) = Some (Ok tt) \/
      nth_error rs (length (statements_before cs)) = Some (Err (DbError 2)))).
Proof.
  intros O W. destruct (commits cs) eqn:C.
  - destruct (shape cs) as [[_ C']|[(m & E & _)|(m & E & C')]]; try congruence.
    set (fs := statements_before cs) in *. rewrite E in W.
    destruct (whole_commit fits k rt fs m w _ w' O W) as [(e' & _ & X)|(t & w1 & r1 & w2 & r & t3 & B & L & Cl & Cm & Dd & X)]; [left; exact X|].
    destruct (begin_ok fits k w t w1 O B) as (_ & Db & Op & Fa & _).
    destruct (dos_in fits k fs t w1 _ r1 t w2 L Op Cl) as (_ & Len & Db2 & (x & Ox & Ef) & _).
    destruct (commit_db fits k t w2 x _ t3 w' L Ox Cm) as ([H|(H & _ & R)] & _); [left; unfold visible; congruence|].
    right. split; [reflexivity|]. exists (r1 ++ r :: map (fun _ => Err (consumed k)) m). split; [exact X|].
    rewrite <- Len, firstn_exact, nth_exact. unfold visible. rewrite H. split; [exact Ef|].
    destruct R as [-> | ->]; auto.
  - left. pose proof (C38_discarded k rt cs w O C) as H. rewrite W in H. exact H.
Qed.

(** After commit or rollback, successful or not, every further call is an error,
    and neither the calls nor dropping the transaction sends anything. *)
Theorem C38_single_use k rt (t : txn) (w : link D) r t' w' :
  tx_commit fits k t w = (r, t', w') \/ tx_rollback fits k t w = (r, t', w') ->
  (forall cs, tx_calls fits k cs t' w' = (map (fun _ => Err (consumed k)) cs, t', w')) /\
  tx_drop fits k rt t' w' = (Ok tt, w').
Proof.
  intros H. assert (L : tx_live t' = false).
  { destruct H as [H|H]; [eapply commit_dead|eapply rollback_dead]; exact H. }
  split; [intros cs; apply dead_calls|apply dead_drop]; exact L.
Qed.

(** When nothing is lost, statements that all succeed and satisfy the constraints
    are committed, on every backend. *)
Theorem C38_commit_succeeds k rt (fs : list (stmt D)) (w : link D) d :
  no_faults w -> no_transaction w -> run_all fs (visible w) = Some d -> fits d = true ->
  exists w', whole fits k rt (map Do fs ++ [Commit]) w = (Ok (map (fun _ => Ok tt) fs ++ [Ok tt]), w') /\
    visible w' = d /\ no_transaction w'.
Proof.
  intros F O R Fi. eexists. split; [apply (commit_succeeds fits k rt fs w d F O R Fi)|]. split; reflexivity.
Qed.

(** When nothing is lost, the connection is outside any transaction afterwards, so
    its next statements are not swallowed.  Turso needs more: see below. *)
Theorem C38_connection_free k rt (cs : list (call D)) (w : link D) rs w' :
  no_faults w -> no_transaction w ->
  whole fits k rt cs w = (Ok rs, w') ->
  (k = TxTurso -> if commits cs then nth_error rs (length (statements_before cs)) = Some (Ok tt)
                  else rt = MultiThread) ->
  no_transaction w'.
Proof. intros F O W H. eapply closed; eassumption. Qed.

(** PostgreSQL: once a statement was refused, commit discards everything. *)
Theorem C38_pg_failed_statement rt (fs : list (stmt D)) more (w : link D) rs w' :
  no_transaction w ->
  whole fits TxPg rt (map Do fs ++ Commit :: more) w = (Ok rs, w') ->
  In (Err (DbError 1)) (firstn (length fs) rs) ->
  visible w' = visible w.
Proof.
  intros O W P.
  destruct (whole_commit fits TxPg rt fs more w _ w' O W) as [(e' & X & _)|(t & w1 & r1 & w2 & r & t3 & B & L & Cl & Cm & Dd & X)]; [discriminate|].
  injection X as X. destruct (begin_ok fits TxPg w t w1 O B) as (_ & Db & Op & Fa & _).
  destruct (dos_in fits TxPg fs t w1 _ r1 t w2 L Op Cl) as (_ & Len & Db2 & (x & Ox & Ef) & _ & _ & _ & Pf).
  subst rs. rewrite <- Len, firstn_exact in P.
  destruct (commit_db fits TxPg t w2 x _ t3 w' L Ox Cm) as (_ & _ & H & _).
  unfold visible. rewrite H; [congruence|]. apply Pf; [reflexivity|exact P].
Qed.
End C38.

(** A small database: a list of numbers; 7 is refused at once, 9 at commit. *)
Definition add_number (n : nat) : stmt (list nat) := fun d => if Nat.eqb n 7 then None else Some (n :: d).
Definition no_nine (d : list nat) : bool := negb (existsb (Nat.eqb 9) d).
Definition fresh : link (list nat) := {| l_server := quiet [1]; l_fate := [] |}.
Definition faults (x : list delivery) : link (list nat) := {| l_server := quiet [1]; l_fate := x |}.

Example C38_case_commit : forall k,
  exists w', whole no_nine k NoRuntime [Do (add_number 2); Do (add_number 3); Commit; Do (add_number 4)] fresh =
     (Ok [Ok tt; Ok tt; Ok tt; Err (consumed k)], w') /\ visible w' = [3; 2; 1] /\ no_transaction w'.
Proof. intros []; eexists; repeat split; reflexivity. Qed.
Example C38_case_dropped : forall k,
  exists w', whole no_nine k MultiThread [Do (add_number 2); Do (add_number 3)] fresh = (Ok [Ok tt; Ok tt], w') /\
   visible w' = [1] /\ no_transaction w'.
Proof. intros []; eexists; repeat split; reflexivity. Qed.
Example C38_case_refused : forall k, k <> TxPg ->
  exists w', whole no_nine k MultiThread [Do (add_number 2); Do (add_number 7); Do (add_number 3); Commit] fresh =
    (Ok [Ok tt; Err (DbError 1); Ok tt; Ok tt], w') /\ visible w' = [3; 2; 1].
Proof. intros [] H; try congruence; eexists; repeat split; reflexivity. Qed.
Example C38_case_commit_failed : forall k,
  exists w', whole no_nine k MultiThread [Do (add_number 2); Do (add_number 9); Commit] fresh =
    (Ok [Ok tt; Ok tt; Err (DbError 1)], w') /\ visible w' = [1].
Proof. intros []; eexists; repeat split; reflexivity. Qed.
Example C38_case_lost_statement : forall k,
  exists w', whole no_nine k MultiThread [Do (add_number 2); Do (add_number 3); Do (add_number 4); Commit]
      (faults [Delivered; ReplyLost; NotSent]) =
    (Ok [Err (DbError 2); Err (DbError 0); Ok tt; Ok tt], w') /\ visible w' = [4; 2; 1].
Proof. intros []; eexists; repeat split; reflexivity. Qed.

(** "Visible exactly if commit succeeds" fails when the answer to COMMIT is lost:
    the caller gets an error and the effects are there. *)
Theorem C38_lost_reply_refuted : forall k,
  exists w w', no_transaction (D := list nat) w /\
    whole no_nine k MultiThread [Do (add_number 2); Commit] w = (Ok [Ok tt; Err (DbError 2)], w') /\
    visible w' = [2; 1] /\ visible w = [1].
Proof. intros k. exists (faults [Delivered; Delivered; ReplyLost]). destruct k; eexists; repeat split; reflexivity. Qed.

(** It fails on PostgreSQL when a statement was refused before: commit reports
    success and nothing is visible, although another statement had succeeded. *)
Theorem C38_pg_commit_refuted :
  exists w', whole no_nine TxPg NoRuntime [Do (add_number 2); Do (add_number 7); Commit] fresh =
      (Ok [Ok tt; Err (DbError 1); Ok tt], w') /\ visible w' = visible fresh.
Proof. eexists; split; reflexivity. Qed.

(** Turso: after a refused commit the transaction stays open on the connection, so
    that the next statement there succeeds and is not visible. *)
Theorem C38_turso_failed_commit_refuted :
  exists w' w'', whole no_nine TxTurso MultiThread [Do (add_number 9); Commit] fresh =
      (Ok [Ok tt; Err (DbError 1)], w') /\
    ~ no_transaction w' /\
    send no_nine TxTurso (CStmt (add_number 5)) w' = (Ok tt, w'') /\ visible w'' = visible fresh.
Proof. eexists _, _. split; [reflexivity|]. split; [discriminate|]. split; reflexivity. Qed.

(** Turso: dropped outside a tokio runtime, which is where synchronous code is, a
    transaction is not rolled back: the next statement on the connection is
    swallowed by it and the next transaction cannot start. *)
Theorem C38_turso_sync_drop_refuted :
  exists w' w'', whole no_nine TxTurso NoRuntime [Do (add_number 2)] fresh = (Ok [Ok tt], w') /\
    ~ no_transaction w' /\
    send no_nine TxTurso (CStmt (add_number 5)) w' = (Ok tt, w'') /\ visible w'' = visible fresh /\
    fst (tx_begin no_nine TxTurso w'') = Err (DbError 1).
Proof. eexists _, _. split; [reflexivity|]. split; [discriminate|]. repeat split; reflexivity. Qed.

(** Turso: dropped on a current-thread runtime, it panics. *)
Theorem C38_turso_drop_panics_refuted :
  fst (whole no_nine TxTurso CurrentThread [Do (add_number 2)] fresh) = Panic.
Proof. reflexivity. Qed.

(** On every backend a lost answer to BEGIN leaves a transaction open that no object
    stands for. *)
Theorem C38_lost_begin_refuted : forall k,
  exists w', whole no_nine k MultiThread [Do (add_number 2); Commit] (faults [ReplyLost]) = (Err (DbError 2), w') /\
    ~ no_transaction w'.
Proof. intros []; eexists; split; try reflexivity; discriminate. Qed.

(** * C40 *)
Section C40.
Context {C A V : Type}.
Variable driver : method -> A -> C -> outcome V * C.
Variable join_error : error.

(** The closure runs on the real connection; when it ends, with a value or an error,
    the caller gets its answer and the connection is back, in the state the closure
    left it in. *)
Theorem C40_given_back {T} (f : closure A V T) c o c' :
  runs driver f c o c' -> o <> Panic ->
  with_sync driver join_error Awaited f (Driver c) =
    {| answer := Some o; self_holds := Driver c'; dropped := None |}.
Proof.
  intros R N. cbn. replace (on_adapter driver f (Driver c)) with (o, Driver c').
  - destruct o; congruence.
  - symmetry. apply adapter_runs. eauto.
Qed.

(** A closure always ends in one way, so the theorem above always applies unless it
    panics. *)
Theorem C40_closure_ends {T} (f : closure A V T) c : exists o c', runs driver f c o c'.
Proof.
  destruct (on_adapter driver f (Driver c)) as [o s] eqn:E. apply adapter_runs in E.
  destruct E as (c' & _ & R). eauto.
Qed.

(** The connection is poisoned exactly if the closure panics, the task never runs, the
    adapter cannot be made, or the caller stops waiting. *)
Theorem C40_poisoned_when {T} ev (f : closure A V T) c :
  self_holds (with_sync driver join_error ev f (Driver c)) = Dummy <->
  (ev = Awaited -> exists c', runs driver f c Panic c').
Proof.
  destruct ev; cbn; try (split; [discriminate|reflexivity]).
  destruct (on_adapter driver f (Driver c)) as [o s] eqn:E. apply adapter_runs in E. destruct E as (c' & -> & R).
  destruct o; cbn; (split; [intros; try discriminate; eauto|]); try reflexivity.
  - intros H. destruct (H eq_refl) as (c2 & R2).
    assert (E1 : on_adapter driver f (Driver c) = (Ok a, Driver c')) by (apply adapter_runs; eauto).
    assert (E2 : on_adapter driver f (Driver c) = (Panic, Driver c2)) by (apply adapter_runs; eauto). congruence.
  - intros H. destruct (H eq_refl) as (c2 & R2).
    assert (E1 : on_adapter driver f (Driver c) = (Err e, Driver c')) by (apply adapter_runs; eauto).
    assert (E2 : on_adapter driver f (Driver c) = (Panic, Driver c2)) by (apply adapter_runs; eauto). congruence.
Qed.

(** In those cases a waiting caller gets an error. *)
Theorem C40_poisoned_answer {T} ev (f : closure A V T) c :
  self_holds (with_sync driver join_error ev f (Driver c)) = Dummy ->
  answer (with_sync driver join_error ev f (Driver c)) = None /\ ev = Abandoned \/
  exists e, answer (with_sync driver join_error ev f (Driver c)) = Some (Err e).
Proof.
  destruct ev; cbn; eauto.
  destruct (on_adapter driver f (Driver c)) as [o s] eqn:E. apply adapter_runs in E. destruct E as (c' & -> & R).
  destruct o; cbn; try discriminate; eauto.
Qed.

(** A poisoned connection answers every method with a poisoned-connection error,
    stays poisoned, and runs closures so that each of their calls gets that error. *)
Theorem C40_poisoned_calls us rs s :
  use_all driver join_error us Dummy = (rs, s) ->
  s = Dummy /\
  Forall2 (fun u r => match u with
           | UCall _ _ => r = Some (Err PoisonedConnection)
           | UWithSync Awaited f => exists o, refused f o /\ r = Some (match o with Panic => Err join_error | _ => o end)
           | UWithSync Abandoned _ => r = None
           | UWithSync NeverRun _ => r = Some (Err join_error)
           | UWithSync (AdapterFails e) _ => r = Some (Err e)
           end) us rs.
Proof.
  intros E. split; [eapply dummy_stays; exact E|]. revert rs s E.
  induction us as [|u us IH]; cbn; intros rs s E.
  - injection E as <- _. constructor.
  - destruct (use_once driver join_error u Dummy) as [r s1] eqn:Eu.
    assert (S1 : s1 = Dummy).
    { apply (dummy_stays driver join_error [u] [r]). cbn. rewrite Eu. reflexivity. }
    subst s1. destruct (use_all driver join_error us Dummy) as [rs1 s2] eqn:Er.
    injection E as <- _. constructor; [|eapply IH; reflexivity].
    destruct u as [m a|ev f]; cbn in Eu; [injection Eu as <-; rewrite dummy_all; reflexivity|].
    destruct ev; cbn in Eu; try (injection Eu as <-; reflexivity).
    destruct (on_adapter driver f Dummy) as [o s'] eqn:Ea. apply adapter_dummy in Ea. destruct Ea as [-> R].
    exists o. split; [exact R|]. destruct o; injection Eu as <-; reflexivity.
Qed.

(** Over any history of calls and [with_sync]s, whatever happens to them, the object
    holds the connection it started with or is poisoned: as long as it is not
    poisoned, the answers and the state are those of the driver connection used
    directly. *)
Fixpoint directly (us : list (use A V)) (c : C) (rs : list (option (outcome V))) (c' : C) : Prop :=
  match us, rs with
  | [], [] => c' = c
  | UCall m a :: us, r :: rs => exists v c1, driver m a c = (v, c1) /\ r = Some v /\ directly us c1 rs c'
  | UWithSync ev f :: us, r :: rs =>
      ev = Awaited /\ exists o c1, runs driver f c o c1 /\ o <> Panic /\ r = Some o /\ directly us c1 rs c'
  | _, _ => False
  end.

Theorem C40_history us c rs s :
  use_all driver join_error us (Driver c) = (rs, s) ->
  s = Dummy \/ exists c', s = Driver c' /\ directly us c rs c'.
Proof.
  revert c rs s. induction us as [|u us IH]; cbn; intros c rs s E.
  - injection E as <- <-. right. exists c. auto.
  - destruct (use_once driver join_error u (Driver c)) as [r s1] eqn:Eu.
    destruct (use_all driver join_error us s1) as [rs1 s2] eqn:Er. injection E as <- <-.
    destruct s1 as [c1|]; [|left; eapply dummy_stays; exact Er].
    destruct (IH c1 rs1 s2 Er) as [->|(c' & -> & Di)]; [left; reflexivity|]. right. exists c'. split; [reflexivity|].
    destruct u as [m a|ev f]; cbn in Eu.
    + destruct (driver m a c) as [v c2] eqn:Ed. injection Eu as <- <-. eauto 6.
    + destruct ev; cbn in Eu; try discriminate. split; [reflexivity|].
      destruct (on_adapter driver f (Driver c)) as [o s'] eqn:Ea. apply adapter_runs in Ea. destruct Ea as (c2 & -> & R).
      destruct o; cbn in Eu; try discriminate; injection Eu as <- <-; eexists _, _; repeat split; eauto; discriminate.
Qed.

(** A caller who stops waiting does not stop the closure: it acts on the connection,
    which is then dropped. *)
Theorem C40_abandoned {T} (f : closure A V T) c o c' :
  runs driver f c o c' ->
  with_sync driver join_error Abandoned f (Driver c) =
    {| answer := None; self_holds := Dummy; dropped := Some (Driver c') |}.
Proof.
  intros R. cbn. replace (on_adapter driver f (Driver c)) with (o, Driver c'); [reflexivity|].
  symmetry. apply adapter_runs. eauto.
Qed.

(** A poisoned connection says it is closed and names no real backend. *)
Theorem C40_poisoned_looks closed name :
  is_closed (C:=C) closed Dummy = true /\ backend_name (C:=C) name Dummy = "dummy".
Proof. split; reflexivity. Qed.
End C40.

(** A driver that counts the calls and refuses the third. *)
Definition count_driver : method -> nat -> nat -> outcome nat * nat :=
  fun _ a n => if Nat.eqb n 2 then (Err (DbError 1), 3) else (Ok (a + n), S n).
Example C40_case_ok :
  with_sync count_driver (Internal "join") Awaited
    (Call MExecute 10 (fun _ => Call MQuery 20 (fun r => Return r))) (Driver 0) =
  {| answer := Some (Ok 21); self_holds := Driver 2; dropped := None |}.
Proof. reflexivity. Qed.
Example C40_case_error :
  use_all count_driver (Internal "join")
    [UCall MExecute 1; UWithSync Awaited (Call MUpdate 1 (fun _ => Call MQuery 20 (fun r => Return r))); UCall MQuery 5]
    (Driver 0) = ([Some (Ok 1); Some (Err (DbError 1)); Some (Ok 8)], Driver 4).
Proof. reflexivity. Qed.
Example C40_case_panic :
  use_all count_driver (Internal "join")
    [UWithSync Awaited (Call MUpdate 1 (fun _ => Return Panic)); UCall MQuery 5;
     UWithSync Awaited (Call MUpdate 1 (fun r => Return r))]
    (Driver 0) = ([Some (Err (Internal "join")); Some (Err PoisonedConnection); Some (Err PoisonedConnection)], Dummy).
Proof. reflexivity. Qed.
Example C40_case_runs : exists c',
  runs count_driver (Call MExecute 10 (fun _ => Call MQuery 20 (fun r => Return r))) 0 (Ok 21) c' /\ c' = 2.
Proof. eexists. split; [repeat (eapply runs_call; [reflexivity|]); constructor|reflexivity]. Qed.

Print Assumptions C38_discarded.
Print Assumptions C38_invisible.
Print Assumptions C38_committed.
Print Assumptions C38_commit_failed.
Print Assumptions C38_all_or_nothing.
Print Assumptions C38_single_use.
Print Assumptions C38_commit_succeeds.
Print Assumptions C38_connection_free.
Print Assumptions C38_pg_failed_statement.
Print Assumptions C38_lost_reply_refuted.
Print Assumptions C38_pg_commit_refuted.
Print Assumptions C38_turso_failed_commit_refuted.
Print Assumptions C38_turso_sync_drop_refuted.
Print Assumptions C38_turso_drop_panics_refuted.
Print Assumptions C38_lost_begin_refuted.
Print Assumptions C40_given_back.
Print Assumptions C40_closure_ends.
Print Assumptions C40_poisoned_when.
Print Assumptions C40_poisoned_answer.
Print Assumptions C40_poisoned_calls.
Print Assumptions C40_history.
Print Assumptions C40_abandoned.
Print Assumptions C40_poisoned_looks.
