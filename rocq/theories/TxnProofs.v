(** Proofs about transactions. *)
From Verif Require Import Base Txn TxnSpec.
From Coq Require Import Lia.

Section P.
Context {D : Type}.
Variable fits : D -> bool.
Notation send := (send fits). Notation serve := (serve fits).

(** One statement inside a transaction. *)
Lemma do_in k f (t : txn) (w : link D) x r w' :
  tx_live t = true -> sv_open (l_server w) = Some x ->
  tx_do fits k f t w = (r, w') ->
  sv_db (l_server w') = sv_db (l_server w) /\
  (exists x', sv_open (l_server w') = Some x' /\ effects x [f] [r] x') /\
  (is_pg k = false -> sv_failed (l_server w) = false -> sv_failed (l_server w') = false) /\
  (r = Ok tt -> sv_failed (l_server w') = sv_failed (l_server w)) /\
  (sv_failed (l_server w) = true -> sv_failed (l_server w') = true) /\
  (is_pg k = true -> r = Err (DbError 1) -> sv_failed (l_server w') = true).
Proof.
  intros L O. unfold tx_do. rewrite L. unfold Txn.send, Txn.serve. rewrite O.
  destruct (sv_failed (l_server w)) eqn:F; [|destruct (f x) as [y|] eqn:Y];
    destruct (fate_of w); intros E; injection E as <- <-; cbn;
    repeat split; intros; try congruence; try discriminate;
    try (eexists; split; [eassumption || reflexivity|]);
    try (eapply eff_not; constructor); try (eapply eff_done; [eassumption|constructor]);
    try (eapply eff_lost; [eassumption|constructor]).
Qed.

Lemma effects_cons x f r x1 fs rs x2 : effects x [f] [r] x1 -> effects x1 fs rs x2 ->
  effects (D:=D) x (f :: fs) (r :: rs) x2.
Proof.
  intros A B. inversion A as [|? ? ? ? ? ? F R|? ? ? ? ? ? R|? ? ? ? ? ? F R]; subst; inversion R; subst.
  - eapply eff_done; eassumption.
  - eapply eff_not; eassumption.
  - eapply eff_lost; eassumption.
Qed.

(** Statements inside a transaction. *)
Lemma dos_in k fs : forall (t : txn) (w : link D) x rs t' w',
  tx_live t = true -> sv_open (l_server w) = Some x ->
  tx_calls fits k (map Do fs) t w = (rs, t', w') ->
  t' = t /\ length rs = length fs /\ sv_db (l_server w') = sv_db (l_server w) /\
  (exists x', sv_open (l_server w') = Some x' /\ effects x fs rs x') /\
  (is_pg k = false -> sv_failed (l_server w) = false -> sv_failed (l_server w') = false) /\
  (all_ok rs -> sv_failed (l_server w') = sv_failed (l_server w)) /\
  (sv_failed (l_server w) = true -> sv_failed (l_server w') = true) /\
  (is_pg k = true -> In (Err (DbError 1)) rs -> sv_failed (l_server w') = true).
Proof.
  induction fs as [|f fs IH]; intros t w x rs t' w' L O E; cbn in E.
  - injection E as <- <- <-. repeat split; auto; try (eexists; split; [eassumption|constructor]).
  - destruct (tx_do fits k f t w) as [r w1] eqn:Ed.
    destruct (tx_calls fits k (map Do fs) t w1) as [[rs1 t1] w2] eqn:Er.
    injection E as <- <- <-.
    destruct (do_in k f t w x r w1 L O Ed) as (D1 & (x1 & O1 & F1) & N1 & K1 & S1 & P1).
    destruct (IH t w1 x1 rs1 t1 w2 L O1 Er) as (-> & Len & D2 & (x2 & O2 & F2) & N2 & K2 & S2 & P2).
    split; [reflexivity|]. split; [cbn; lia|]. split; [congruence|].
    split; [exists x2; split; [assumption|eapply effects_cons; eassumption]|].
    split; [auto|]. split; [|split].
    + intros A. rewrite K2, K1; auto.
      * apply A. left. reflexivity.
      * intros q Hq. apply A. right. exact Hq.
    + auto.
    + intros Pg [->|I]; auto.
Qed.

(** Once consumed. *)
Lemma dead_calls k cs : forall (t : txn) (w : link D), tx_live t = false ->
  tx_calls fits k cs t w = (map (fun _ => Err (consumed k)) cs, t, w).
Proof.
  induction cs as [|c cs IH]; intros t w L; [reflexivity|].
  cbn. unfold tx_call, tx_do, tx_commit, tx_rollback. rewrite L.
  destruct c; rewrite IH by exact L; reflexivity.
Qed.
Lemma dead_drop k rt (t : txn) (w : link D) : tx_live t = false -> tx_drop fits k rt t w = (Ok tt, w).
Proof. intros L. unfold tx_drop. rewrite L. reflexivity. Qed.

Lemma commit_dead k (t : txn) (w : link D) r t' w' : tx_commit fits k t w = (r, t', w') -> tx_live t' = false.
Proof.
  unfold tx_commit. destruct (tx_live t) eqn:L; [|intros E; injection E as <- <- <-; exact L].
  destruct (send k CCommit w). destruct k; intros E; injection E as <- <- <-; reflexivity.
Qed.
Lemma rollback_dead k (t : txn) (w : link D) r t' w' : tx_rollback fits k t w = (r, t', w') -> tx_live t' = false.
Proof.
  unfold tx_rollback. destruct (tx_live t) eqn:L; [|intros E; injection E as <- <- <-; exact L].
  destruct (send k CRollback w). destruct k; intros E; injection E as <- <- <-; reflexivity.
Qed.

Lemma calls_app k a : forall b (t : txn) (w : link D),
  tx_calls fits k (a ++ b) t w =
  let '(r1, t1, w1) := tx_calls fits k a t w in
  let '(r2, t2, w2) := tx_calls fits k b t1 w1 in (r1 ++ r2, t2, w2).
Proof.
  induction a as [|c a IH]; intros b t w; cbn.
  - destruct (tx_calls fits k b t w) as [[? ?] ?]. reflexivity.
  - destruct (tx_call fits k c t w) as [[r t1] w1]. rewrite IH.
    destruct (tx_calls fits k a t1 w1) as [[ra ta] wa].
    destruct (tx_calls fits k b ta wa) as [[rb tb] wb]. reflexivity.
Qed.

(** Rolling back in any way never changes what others see. *)
Lemma rollback_db k (w : link D) : sv_db (l_server (snd (send k CRollback w))) = sv_db (l_server w).
Proof.
  unfold Txn.send, Txn.serve. destruct (sv_open (l_server w)); destruct (fate_of w); reflexivity.
Qed.
Lemma rusqlite_db (w : link D) : sv_db (l_server (rusqlite_drop fits w)) = sv_db (l_server w).
Proof. unfold rusqlite_drop. destruct (sv_open (l_server w)); [apply rollback_db|reflexivity]. Qed.
Lemma tx_rollback_db k (t : txn) (w : link D) r t' w' : tx_rollback fits k t w = (r, t', w') ->
  sv_db (l_server w') = sv_db (l_server w).
Proof.
  unfold tx_rollback. destruct (tx_live t); [|intros E; injection E as <- <- <-; reflexivity].
  pose proof (rollback_db k w) as H. destruct (send k CRollback w) as [q w1]. cbn in H.
  destruct k; intros E; injection E as <- <- <-; rewrite ?rusqlite_db; exact H.
Qed.
Lemma tx_drop_db k rt (t : txn) (w : link D) : sv_db (l_server (snd (tx_drop fits k rt t w))) = sv_db (l_server w).
Proof.
  unfold tx_drop. destruct (tx_live t); [|reflexivity].
  destruct k; cbn; rewrite ?rusqlite_db, ?rollback_db; try reflexivity.
  destruct (tx_committed t); [reflexivity|]. destruct rt; cbn; rewrite ?rollback_db; reflexivity.
Qed.

(** Commit. *)
Lemma commit_db k (t : txn) (w : link D) x r t' w' :
  tx_live t = true -> sv_open (l_server w) = Some x ->
  tx_commit fits k t w = (r, t', w') ->
  (sv_db (l_server w') = sv_db (l_server w) \/
   (sv_db (l_server w') = x /\ sv_failed (l_server w) = false /\ (r = Ok tt \/ r = Err (DbError 2)))) /\
  (r = Ok tt -> sv_failed (l_server w) = false -> sv_db (l_server w') = x) /\
  (sv_failed (l_server w) = true -> sv_db (l_server w') = sv_db (l_server w)) /\
  (r = Ok tt \/ exists e, r = Err e) /\
  (forall e, r = Err e -> e <> DbError 2 -> sv_db (l_server w') = sv_db (l_server w)).
Proof.
  intros L O. unfold tx_commit. rewrite L. unfold Txn.send, Txn.serve. rewrite O.
  destruct (sv_failed (l_server w)) eqn:F; [|destruct (fits x) eqn:Fi];
    destruct (fate_of w); destruct k; intros E; injection E as <- <- <-; cbn;
    rewrite ?rusqlite_db; cbn; repeat split; intros; try congruence; try discriminate; eauto;
    try (right; repeat split; auto; fail); try (left; reflexivity).
Qed.

Lemma begin_ok k (w : link D) t w1 : sv_open (l_server w) = None ->
  tx_begin fits k w = (Ok t, w1) ->
  t = {| tx_live := true; tx_committed := false |} /\
  sv_db (l_server w1) = sv_db (l_server w) /\ sv_open (l_server w1) = Some (sv_db (l_server w)) /\
  sv_failed (l_server w1) = false /\ l_fate w1 = List.tl (l_fate w).
Proof.
  intros O. unfold tx_begin, Txn.send, Txn.serve. rewrite O.
  destruct (fate_of w); intros E; try discriminate. injection E as <- <-. cbn. auto.
Qed.
Lemma begin_db k (w : link D) o w1 : sv_open (l_server w) = None ->
  tx_begin fits k w = (o, w1) -> sv_db (l_server w1) = sv_db (l_server w).
Proof.
  intros O. unfold tx_begin, Txn.send, Txn.serve. rewrite O.
  destruct (fate_of w); intros E; injection E as <- <-; reflexivity.
Qed.

(** Every call list is statements, then nothing or a commit or a rollback. *)
Lemma shape (cs : list (call D)) :
  (cs = map Do (statements_before cs) /\ commits cs = false) \/
  (exists more, cs = map Do (statements_before cs) ++ Commit :: more /\ commits cs = true) \/
  (exists more, cs = map Do (statements_before cs) ++ Rollback :: more /\ commits cs = false).
Proof.
  induction cs as [|[f| |] cs IH]; cbn.
  - left. auto.
  - destruct IH as [[E C]|[(m & E & C)|(m & E & C)]].
    + left. split; congruence.
    + right. left. exists m. split; congruence.
    + right. right. exists m. split; congruence.
  - right. left. exists cs. auto.
  - right. right. exists cs. auto.
Qed.

(** A whole transaction that commits. *)
Lemma whole_commit k rt fs more (w : link D) o w' :
  sv_open (l_server w) = None ->
  whole fits k rt (map Do fs ++ Commit :: more) w = (o, w') ->
  (exists e, o = Err e /\ sv_db (l_server w') = sv_db (l_server w)) \/
  exists t w1 r1 w2 r t3,
    tx_begin fits k w = (Ok t, w1) /\ tx_live t = true /\
    tx_calls fits k (map Do fs) t w1 = (r1, t, w2) /\
    tx_commit fits k t w2 = (r, t3, w') /\ tx_live t3 = false /\
    o = Ok (r1 ++ r :: map (fun _ => Err (consumed k)) more).
Proof.
  intros O. unfold whole. destruct (tx_begin fits k w) as [[t|e|] w1] eqn:B.
  - destruct (begin_ok k w t w1 O B) as (Ht & Db & Op & Fa & _).
    assert (L : tx_live t = true) by (rewrite Ht; reflexivity).
    rewrite calls_app. destruct (tx_calls fits k (map Do fs) t w1) as [[r1 t1] w2] eqn:C.
    destruct (dos_in k fs t w1 _ r1 t1 w2 L Op C) as (-> & _).
    cbn. destruct (tx_commit fits k t w2) as [[r t3] w3] eqn:Cm.
    pose proof (commit_dead _ _ _ _ _ _ Cm) as Dd. rewrite (dead_calls k more t3 w3 Dd).
    rewrite (dead_drop k rt t3 w3 Dd). cbn. intros E; injection E as <- <-.
    right. exists t, w1, r1, w2, r, t3. repeat split; auto.
  - intros E; injection E as <- <-. left. exists e. split; [reflexivity|]. eapply begin_db; eassumption.
  - unfold tx_begin, Txn.send in B. destruct (serve k CBegin (l_server w)) as [[] s]; destruct (fate_of w); discriminate.
Qed.

Lemma firstn_exact {A} (a b : list A) : firstn (length a) (a ++ b) = a.
Proof. induction a; cbn; [destruct b; reflexivity|congruence]. Qed.
Lemma nth_exact {A} (a : list A) x b : nth_error (a ++ x :: b) (length a) = Some x.
Proof. induction a; cbn; auto. Qed.

Lemma discarded k rt cs (w : link D) : sv_open (l_server w) = None -> commits cs = false ->
  sv_db (l_server (snd (whole fits k rt cs w))) = sv_db (l_server w).
Proof.
  intros O C. unfold whole. destruct (tx_begin fits k w) as [[t|e|] w1] eqn:B;
    try (cbn; eapply begin_db; eassumption).
  destruct (begin_ok k w t w1 O B) as (Ht & Db & Op & Fa & _).
  assert (L : tx_live t = true) by (rewrite Ht; reflexivity).
  destruct (shape cs) as [[E _]|[(m & E & C2)|(m & E & _)]]; [|congruence|]; rewrite E; clear E C.
  - destruct (tx_calls fits k (map Do (statements_before cs)) t w1) as [[rs t2] w2] eqn:Cl.
    destruct (dos_in k _ t w1 _ rs t2 w2 L Op Cl) as (-> & _ & Db2 & _).
    pose proof (tx_drop_db k rt t w2) as H. destruct (tx_drop fits k rt t w2) as [q w3]. cbn in *. congruence.
  - rewrite calls_app.
    destruct (tx_calls fits k (map Do (statements_before cs)) t w1) as [[rs t2] w2] eqn:Cl.
    destruct (dos_in k _ t w1 _ rs t2 w2 L Op Cl) as (-> & _ & Db2 & _).
    cbn. destruct (tx_rollback fits k t w2) as [[r t3] w3] eqn:R.
    pose proof (rollback_dead _ _ _ _ _ _ R) as Dd. rewrite (dead_calls k m t3 w3 Dd).
    rewrite (dead_drop k rt t3 w3 Dd). cbn. rewrite (tx_rollback_db _ _ _ _ _ _ R). congruence.
Qed.

(** Without faults. *)
Lemma send_quiet k c (w : link D) : l_fate w = [] -> l_fate (snd (send k c w)) = [].
Proof.
  intros F. unfold Txn.send, fate_of. rewrite F. destruct (serve k c (l_server w)). reflexivity.
Qed.
Lemma rollback_closes k (w : link D) : l_fate w = [] -> sv_open (l_server (snd (send k CRollback w))) = None.
Proof.
  intros F. unfold Txn.send, fate_of. rewrite F. cbn.
  destruct (sv_open (l_server w)) eqn:O; cbn; auto.
Qed.
Lemma rusqlite_closes (w : link D) : l_fate w = [] -> sv_open (l_server (rusqlite_drop fits w)) = None.
Proof. intros F. unfold rusqlite_drop. destruct (sv_open (l_server w)) eqn:O; auto. apply rollback_closes; auto. Qed.
Lemma do_quiet k f (t : txn) (w : link D) : l_fate w = [] -> l_fate (snd (tx_do fits k f t w)) = [].
Proof. intros F. unfold tx_do. destruct (tx_live t); auto. apply send_quiet; auto. Qed.
Lemma dos_quiet k fs : forall (t : txn) (w : link D), l_fate w = [] ->
  l_fate (snd (tx_calls fits k (map Do fs) t w)) = [].
Proof.
  induction fs as [|f fs IH]; intros t w F; [exact F|]. cbn.
  pose proof (do_quiet k f t w F). destruct (tx_do fits k f t w) as [r w1]. cbn in *.
  pose proof (IH t w1 H). destruct (tx_calls fits k (map Do fs) t w1) as [[? ?] ?]. exact H0.
Qed.
Lemma commit_closes k (t : txn) (w : link D) x r t' w' : l_fate w = [] -> tx_live t = true ->
  sv_open (l_server w) = Some x -> tx_commit fits k t w = (r, t', w') ->
  (k = TxTurso -> r = Ok tt) -> sv_open (l_server w') = None.
Proof.
  intros F L O. unfold tx_commit. rewrite L.
  destruct k.
  - pose proof (send_quiet TxSqlite CCommit w F) as Q. destruct (send TxSqlite CCommit w) as [q w1].
    intros E _; injection E as <- <- <-. apply rusqlite_closes. exact Q.
  - unfold Txn.send, Txn.serve, fate_of. rewrite F, O. cbn.
    destruct (sv_failed (l_server w)); [|destruct (fits x)]; intros E _; injection E as <- <- <-; reflexivity.
  - unfold Txn.send, Txn.serve, fate_of. rewrite F, O. cbn.
    destruct (sv_failed (l_server w)); [|destruct (fits x)]; intros E H; injection E as <- <- <-;
      try reflexivity. specialize (H eq_refl). discriminate.
Qed.
Lemma rollback_call_closes k (t : txn) (w : link D) r t' w' : l_fate w = [] -> tx_live t = true ->
  tx_rollback fits k t w = (r, t', w') -> sv_open (l_server w') = None.
Proof.
  intros F L. unfold tx_rollback. rewrite L.
  pose proof (rollback_closes k w F) as H. pose proof (send_quiet k CRollback w F) as Q.
  destruct (send k CRollback w) as [q w1]. cbn in *.
  destruct k; intros E; injection E as <- <- <-; auto. apply rusqlite_closes; auto.
Qed.
Lemma drop_closes k rt (t : txn) (w : link D) : l_fate w = [] -> tx_live t = true ->
  tx_committed t = false ->
  (k = TxTurso -> rt = MultiThread) ->
  sv_open (l_server (snd (tx_drop fits k rt t w))) = None.
Proof.
  intros F L C R. unfold tx_drop. rewrite L, C. destruct k; cbn.
  - apply rusqlite_closes; auto.
  - apply rollback_closes; auto.
  - rewrite (R eq_refl). cbn. apply rollback_closes; auto.
Qed.

Lemma begin_quiet k (w : link D) t w1 : l_fate w = [] -> tx_begin fits k w = (Ok t, w1) -> l_fate w1 = [].
Proof.
  intros F. unfold tx_begin. pose proof (send_quiet k CBegin w F) as H.
  destruct (send k CBegin w) as [[?|?|] ?]; intros E; try discriminate. injection E as <- <-. exact H.
Qed.

Lemma closed k rt cs (w : link D) rs w' : l_fate w = [] -> sv_open (l_server w) = None ->
  (k = TxTurso -> if commits cs then nth_error rs (length (statements_before cs)) = Some (Ok tt)
                  else rt = MultiThread) ->
  whole fits k rt cs w = (Ok rs, w') -> sv_open (l_server w') = None.
Proof.
  intros F O H. destruct (shape cs) as [[E C]|[(m & E & C)|(m & E & C)]]; rewrite C in H.
  - unfold whole. destruct (tx_begin fits k w) as [[t|e|] w1] eqn:B; try discriminate.
    destruct (begin_ok k w t w1 O B) as (Ht & _ & Op & _).
    rewrite E. pose proof (dos_quiet k (statements_before cs) t w1 (begin_quiet _ _ _ _ F B)) as Q.
    destruct (tx_calls fits k (map Do (statements_before cs)) t w1) as [[r1 t2] w2] eqn:Cl.
    assert (L : tx_live t = true) by (rewrite Ht; reflexivity).
    destruct (dos_in k _ t w1 _ r1 t2 w2 L Op Cl) as (-> & _).
    assert (Cm : tx_committed t = false) by (rewrite Ht; reflexivity).
    pose proof (drop_closes k rt t w2 Q L Cm H) as Z.
    destruct (tx_drop fits k rt t w2) as [[u| |] w3]; cbn in *; intros X; try discriminate. injection X as <- <-. exact Z.
  - intros W. rewrite E in W. set (fs := statements_before cs) in *. destruct (whole_commit k rt fs m w _ w' O W) as [(e & X & _)|(t & w1 & r1 & w2 & r & t3 & B & L & Cl & Cm & Dd & X)]; [discriminate|].
    injection X as X. destruct (begin_ok k w t w1 O B) as (_ & _ & Op & _).
    pose proof (dos_quiet k fs t w1 (begin_quiet _ _ _ _ F B)) as Q. rewrite Cl in Q.
    destruct (dos_in k fs t w1 _ r1 t w2 L Op Cl) as (_ & Len & _ & (x & Ox & _) & _).
    eapply commit_closes; [exact Q|exact L|exact Ox|exact Cm|].
    intros K. specialize (H K). rewrite X, <- Len, nth_exact in H. congruence.
  - unfold whole. destruct (tx_begin fits k w) as [[t|e|] w1] eqn:B; try discriminate.
    destruct (begin_ok k w t w1 O B) as (Ht & _ & Op & _).
    rewrite E, calls_app. pose proof (dos_quiet k (statements_before cs) t w1 (begin_quiet _ _ _ _ F B)) as Q.
    destruct (tx_calls fits k (map Do (statements_before cs)) t w1) as [[r1 t2] w2] eqn:Cl.
    assert (L : tx_live t = true) by (rewrite Ht; reflexivity).
    destruct (dos_in k _ t w1 _ r1 t2 w2 L Op Cl) as (-> & _).
    cbn. destruct (tx_rollback fits k t w2) as [[r t3] w3] eqn:R.
    pose proof (rollback_dead _ _ _ _ _ _ R) as Dd. rewrite (dead_calls k m t3 w3 Dd).
    rewrite (dead_drop k rt t3 w3 Dd). cbn. intros X; injection X as <- <-.
    exact (rollback_call_closes k t w2 r t3 w3 Q L R).
Qed.

Lemma dos_succeed k fs : forall (t : txn) (w : link D) x d', l_fate w = [] -> tx_live t = true ->
  sv_open (l_server w) = Some x -> sv_failed (l_server w) = false -> run_all fs x = Some d' ->
  exists w', tx_calls fits k (map Do fs) t w = (map (fun _ => Ok tt) fs, t, w') /\
    l_server w' = {| sv_db := sv_db (l_server w); sv_open := Some d'; sv_failed := false |} /\ l_fate w' = [].
Proof.
  induction fs as [|f fs IH]; intros t w x d' F L O Fa R; cbn in *.
  - injection R as <-. exists w. repeat split; auto. destruct (l_server w); cbn in *; congruence.
  - destruct (f x) as [x1|] eqn:Fx; [|discriminate].
    unfold tx_do. rewrite L. unfold Txn.send, Txn.serve, fate_of. rewrite F, O, Fa, Fx. cbn.
    destruct (IH t {| l_server := {| sv_db := sv_db (l_server w); sv_open := Some x1; sv_failed := false |}; l_fate := [] |}
                x1 d' eq_refl L eq_refl eq_refl R) as (w' & E & S & Fw).
    rewrite E. exists w'. auto.
Qed.

Lemma commit_succeeds k rt fs (w : link D) d' : l_fate w = [] -> sv_open (l_server w) = None ->
  run_all fs (sv_db (l_server w)) = Some d' -> fits d' = true ->
  whole fits k rt (map Do fs ++ [Commit]) w =
    (Ok (map (fun _ => Ok tt) fs ++ [Ok tt]), {| l_server := quiet d'; l_fate := [] |}).
Proof.
  intros F O R Fi. unfold whole, tx_begin. unfold Txn.send at 1. unfold Txn.serve, fate_of. rewrite F, O. cbn [List.tl].
  rewrite calls_app.
  destruct (dos_succeed k fs {| tx_live := true; tx_committed := false |}
     {| l_server := {| sv_db := sv_db (l_server w); sv_open := Some (sv_db (l_server w)); sv_failed := false |}; l_fate := [] |}
     (sv_db (l_server w)) d' eq_refl eq_refl eq_refl eq_refl R) as (w2 & E & S & Fw).
  rewrite E. cbn [tx_calls tx_call]. unfold tx_commit, Txn.send, Txn.serve, fate_of. cbn [tx_live].
  rewrite S, Fw. cbn. rewrite Fi. destruct k; reflexivity.
Qed.
End P.
