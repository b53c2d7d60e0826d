(** C39: the async adapter. *)
From Verif Require Import Base Adapter AdapterSpec AdapterProofs.
From Coq Require Import Lia.

Section C39.
Context {D A R : Type}.
Variable run : nat -> A -> D -> option (R * D).
Variable begin : nat -> nat -> D -> option (option R * D).
Variable free : nat -> D -> option D.
Notation reachable := (reachable run begin free).
Notation step := (step run begin free).
Notation sequentially := (sequentially run begin free).
Notation worker_steps := (worker_steps run begin free).
Implicit Types s : state D A R.

(** Under every schedule the commands executed so far are the first ones sent, in the
    order they were sent, executed one after the other; while the worker is there, the
    others are the running one and the queue. *)
Theorem C39_in_order d s : reachable d s ->
  sequentially d (map fst (s_done s)) (map snd (s_done s)) (s_db s) /\
  (exists rest, s_sent s = map fst (s_done s) ++ rest) /\
  (s_worker s = Idle -> s_sent s = map fst (s_done s) ++ s_queue s) /\
  (forall c, s_worker s = Busy c -> s_sent s = map fst (s_done s) ++ c :: s_queue s).
Proof.
  intros Re. split; [apply (reach_seq _ _ _ d s Re)|].
  pose proof (reach_fifo _ _ _ d s Re) as F. unfold fifo in F.
  repeat split; intros; try (rewrite H in F); auto.
  destruct (s_worker s); eauto.
  - destruct F as (rest & F & _). eauto.
  - destruct F as (_ & c & rest & F). eauto.
Qed.

(** No command is executed twice: numbers of sent commands are all different. *)
Theorem C39_once d s i j n a a' o o' : reachable d s ->
  nth_error (s_sent s) i = Some (Func n a o) -> nth_error (s_sent s) j = Some (Func n a' o') -> i = j.
Proof.
  intros Re. destruct (reach_ids _ _ _ d s Re) as (_ & ND & _). revert ND. generalize (s_sent s). clear.
  intros l. revert i j. induction l as [|c l IH]; intros i j ND I J; [destruct i; discriminate|].
  destruct i as [|i], j as [|j]; auto; cbn in *.
  - injection I as ->. cbn in ND. inversion ND as [|? ? N _]; subst. exfalso. apply N. apply ids_in.
    apply nth_error_In in J. eauto.
  - injection J as ->. cbn in ND. inversion ND as [|? ? N _]; subst. exfalso. apply N. apply ids_in.
    apply nth_error_In in I. eauto.
  - f_equal. eapply IH; eauto. destruct c; cbn in ND; [inversion ND; assumption|exact ND].
Qed.

(** What a client gets is what the command it sent gave when it was executed, and it
    gets one result. *)
Theorem C39_own_result d s : reachable d s ->
  NoDup (map fst (s_results s)) /\
  (forall n rep, In (n, Some rep) (s_results s) -> exists a o, In (Func n a o, rep) (s_done s)) /\
  (forall n rep, In (n, rep) (s_replies s) -> exists a o, In (Func n a o, rep) (s_done s)).
Proof.
  intros Re. destruct (reach_results _ _ _ d s Re) as (ND & _ & Fr). repeat split; auto.
  intros n rep I. eapply reach_reply; eauto.
Qed.

(** Whoever waits, waits for a command that was sent on the adapter it used. *)
Theorem C39_waits_for_own d s n a k : reachable d s -> In (n, a, k) (s_wait s) ->
  exists o, In (Func n a o) (s_sent s) /\
    match k with WCall | WBlocking => exists x, o = OCall x | WBegin => o = OBegin | WDrop => o = OFree end.
Proof.
  intros Re W. destruct (reach_wait_cmd _ _ _ d s Re n a k W) as (o & I & K). exists o. split; [exact I|].
  destruct k, o; cbn in K; try contradiction; eauto.
Qed.

(** Nobody waits for ever: by steps of the worker alone every waiting client gets its
    answer, or learns that the worker died; where there is no error to return, by a
    panic. *)
Theorem C39_progress d s n a k : reachable d s -> In (n, a, k) (s_wait s) ->
  exists s1 s2, worker_steps s s1 /\ step s1 s2 /\ (forall a' k', ~ In (n, a', k') (s_wait s2)) /\
    (k <> WDrop -> (exists r, In (n, r) (s_results s2))) /\
    (k <> WDrop -> s_worker s1 <> Died -> exists rep, In (n, Some rep) (s_results s2)) /\
    (k = WBlocking \/ k = WDrop -> (forall rep, ~ In (n, rep) (s_replies s1)) -> s_panicked s2 = true).
Proof.
  intros Re W. destruct (progress _ _ _ d s n a k Re W) as (s1 & St & W1 & An).
  assert (Dec : (exists rep, In (n, rep) (s_replies s1)) \/ (forall rep, ~ In (n, rep) (s_replies s1))).
  { clear. induction (s_replies s1) as [|[m r] l IH]; [right; auto|].
    destruct (Nat.eq_dec m n) as [->|Ne]; [left; exists r; left; reflexivity|].
    destruct IH as [(r' & I)|N]; [left; exists r'; right; exact I|].
    right. intros r' [E|I]; [congruence|eapply N; eauto]. }
  assert (Gone : forall s0 x y, ~ In (n, x, y) (no_wait n (s_wait s0))).
  { intros s0 x y I. apply in_no_wait in I. destruct I as [_ I]. apply I. reflexivity. }
  destruct Dec as [(rep & I)|N].
  - destruct (match k with WDrop => true | _ => false end) eqn:Kd.
    + destruct k; try discriminate. exists s1. eexists. split; [exact St|].
      split; [eapply st_dropped; eassumption|].
      destruct (drop_cases a (leave n None false s1)) as [[E _]|(_ & _ & E)]; rewrite E; cbn; repeat split; try congruence; auto;
        intros _ Nr; exfalso; eapply Nr; eauto.
    + exists s1. eexists. split; [exact St|].
      split; [eapply st_receive; [exact W1|destruct k; discriminate|exact I]|].
      destruct rep; cbn; repeat split; eauto; intros _ Nr; exfalso; eapply Nr; eauto.
  - destruct An as [(rep & I)|Dd]; [exfalso; eapply N; eauto|].
    destruct (match k with WDrop => true | _ => false end) eqn:Kd.
    + destruct k; try discriminate. exists s1. eexists. split; [exact St|].
      split; [eapply st_drop_lost; eassumption|].
      destruct (drop_cases a (leave n None true s1)) as [[E _]|(_ & _ & E)]; rewrite E; cbn; repeat split; try congruence; auto;
        intros; apply orb_true_r.
    + exists s1. eexists. split; [exact St|].
      split; [eapply st_lost; [exact W1|destruct k; discriminate|exact Dd|exact N]|].
      cbn; repeat split; eauto; try congruence. intros [E|E] _; rewrite E in *; [apply orb_true_r|discriminate].
Qed.

(** A client that has panicked stays panicked. *)
Theorem C39_panic_stays s s' : step s s' -> s_panicked s = true -> s_panicked s' = true.
Proof.
  intros H P. destruct H; cbn; rewrite ?P; auto;
    try (match goal with |- context[drop_adapter ?a ?x] => destruct (drop_cases a x) as [[-> _]|(_ & _ & ->)] end; cbn; rewrite ?P; auto).
  destruct rep; cbn; rewrite P; reflexivity.
Qed.

(** A context is used only between its creation and its end: every command on it comes
    after the command that created it and none after the one that drops it, which
    therefore happens at most once. *)
Theorem C39_context_lifetime d s pre n a o : reachable d s -> follows (s_sent s) pre (Func n a o) ->
  (forall c, In c pre -> ~ frees a c) /\ (a = 0 \/ exists q, In (Func a q OBegin) pre).
Proof.
  intros Re (post & E). destruct (reach_ordered _ _ _ d s Re pre _ post E) as (_ & K1 & K2 & _).
  split; [|exact K2]. intros c I (m & ->). eapply K1; eauto.
Qed.
Theorem C39_freed_once d s a : reachable d s -> times_freed a (s_sent s) <= 1.
Proof.
  intros Re. pose proof (reach_ordered _ _ _ d s Re) as O. unfold ordered in O. revert O.
  generalize (s_results s). intros _. unfold times_freed.
  assert (G : forall l : list (cmd A), (forall pre c post, l = pre ++ c :: post -> frees a c -> forall c', In c' pre -> ~ frees a c') ->
     length (filter (frees_b a) l) <= 1).
  { induction l as [|c l IH] using rev_ind; [cbn; lia|]. intros H. rewrite filter_app, app_length. cbn.
    assert (IH' : length (filter (frees_b a) l) <= 1).
    { apply IH. intros pre c' post E F. eapply (H pre c' (post ++ [c])); [|exact F]. rewrite E, <- app_assoc. reflexivity. }
    destruct (frees_b a c) eqn:F; cbn; [|lia].
    assert (Fc : frees a c).
    { destruct c as [n x [| |]|]; cbn in F; try discriminate. apply Nat.eqb_eq in F. subst. exists n. reflexivity. }
    enough (filter (frees_b a) l = []) as -> by (cbn; lia).
    pose proof (H l c [] eq_refl Fc) as Hn. clear -Hn. induction l as [|x l IH]; [reflexivity|]. cbn.
    destruct (frees_b a x) eqn:Fx.
    - exfalso. apply (Hn x (or_introl eq_refl)). destruct x as [n y [| |]|]; cbn in Fx; try discriminate.
      apply Nat.eqb_eq in Fx. subst. exists n. reflexivity.
    - apply IH. intros c' I. apply Hn. right. exact I. }
  intros O. apply G. intros pre c post E (n & ->) c' I (m & ->).
  destruct (O pre _ post E) as (_ & K & _). eapply K; eauto.
Qed.

(** A transaction handed to a client is dropped before the connection it was started
    on. *)
Theorem C39_transaction_first d s pre n a b : reachable d s ->
  follows (s_sent s) pre (Func n a OFree) ->
  In (b, Some NewCtx) (s_results s) -> In (Func b a OBegin) (s_sent s) ->
  exists m, In (Func m b OFree) pre.
Proof.
  intros Re (post & E) I J. destruct (reach_ordered _ _ _ d s Re pre _ post E) as (_ & _ & _ & K).
  apply K; auto.
Qed.

(** The order to stop is given when no adapter is left, and is the last command. *)
Theorem C39_shutdown_last d s pre c : reachable d s -> In Shutdown (s_sent s) ->
  s_adapters s = [] /\ (follows (s_sent s) pre c -> ~ In Shutdown pre).
Proof.
  intros Re I. split; [apply (reach_shut _ _ _ d s Re); exact I|].
  intros (post & E). apply (reach_ordered _ _ _ d s Re pre c post E).
Qed.

Lemma stopped_done d s : reachable d s -> s_worker s = Stopped -> In Shutdown (map fst (s_done s)).
Proof.
  induction 1 as [|s s' Re IH H]; [discriminate|].
  destruct H; cbn; auto; try (intros W; rewrite W in *; discriminate);
    try (match goal with |- context[drop_adapter ?a ?x] => destruct (drop_cases a x) as [[-> _]|(_ & _ & ->)] end; cbn; auto).
  - discriminate.
  - intros _. rewrite map_app. apply in_or_app. right. left. reflexivity.
  - discriminate.
  - discriminate.
  - destruct rep; cbn; auto.
Qed.

(** When the worker has stopped, no adapter and no waiting client is left, everything
    sent was executed, and every context handed to a client was dropped exactly once. *)
Theorem C39_stopped d s : reachable d s -> s_worker s = Stopped ->
  s_adapters s = [] /\ s_wait s = [] /\ s_sent s = map fst (s_done s) /\
  forall b, b = 0 \/ In (b, Some NewCtx) (s_results s) -> times_freed b (map fst (s_done s)) = 1.
Proof.
  intros Re W. destruct (stopped_no_wait _ _ _ d s Re W) as [E1 E2].
  pose proof (stopped_done d s Re W) as Sd.
  assert (Eq : s_sent s = map fst (s_done s)).
  { pose proof (reach_fifo _ _ _ d s Re) as F. unfold fifo in F. rewrite W in F. destruct F as ([|c rest] & F & _).
    - rewrite app_nil_r in F. exact F.
    - exfalso. apply (reach_ordered _ _ _ d s Re _ _ _ F). exact Sd. }
  repeat split; auto. intros b Db.
  pose proof (C39_freed_once d s b Re) as Le.
  rewrite <- Eq in Sd. apply in_split in Sd. destruct Sd as (pre & post & Es).
  destruct (reach_ordered _ _ _ d s Re pre _ post Es) as (_ & K). destruct (K b Db) as (m & I).
  rewrite <- Eq. assert (Ge : 1 <= times_freed b (s_sent s)).
  { unfold times_freed. assert (J : In (Func m b OFree) (filter (frees_b b) (s_sent s))).
    { apply filter_In. split; [rewrite Es; apply in_or_app; auto|]. cbn. apply Nat.eqb_refl. }
    destruct (filter (frees_b b) (s_sent s)); [contradiction|cbn; lia]. }
  lia.
Qed.

(** A command that is not yet finished belongs to a client that is still waiting, so that
    what it borrows is there, or to one that dropped its future. *)
Theorem C39_borrowed_or_gone d s n a o : reachable d s -> alive s ->
  In (Func n a o) (s_queue s) \/ s_worker s = Busy (Func n a o) ->
  waits n s = true \/ In n (s_gone s).
Proof.
  intros Re Al P. pose proof (reach_fifo _ _ _ d s Re) as F. unfold fifo in F.
  assert (I : In (Func n a o) (s_sent s)).
  { unfold alive in Al. destruct (s_worker s); try contradiction; rewrite F; apply in_or_app; right.
    - destruct P as [P|P]; [exact P|discriminate].
    - destruct P as [P|P]; [right; exact P|left; congruence]. }
  destruct (reach_pending _ _ _ d s Re n a o I) as [(rep & X)|[X|[X|X]]]; auto.
  - exfalso. destruct (reach_ids _ _ _ d s Re) as (_ & ND & _). apply (in_map fst) in X. cbn in X.
    unfold alive in Al. destruct (s_worker s) as [|c| |]; try contradiction; rewrite F, ids_app in ND.
    + destruct P as [P|P]; [|discriminate].
      assert (I1 : In n (ids (map fst (s_done s)))) by (apply ids_in; eauto).
      assert (I2 : In n (ids (s_queue s))) by (apply ids_in; eauto).
      clear -ND I1 I2. induction (ids (map fst (s_done s))) as [|y l IH]; [contradiction|]. cbn in ND.
      inversion ND as [|? ? N ND']; subst. destruct I1 as [->|I1]; [apply N; apply in_or_app; auto|auto].
    + assert (I1 : In n (ids (map fst (s_done s)))) by (apply ids_in; eauto).
      assert (I2 : In n (ids (c :: s_queue s))).
      { apply ids_in. exists a, o. destruct P as [P|P]; [right; exact P|left; congruence]. }
      clear -ND I1 I2. induction (ids (map fst (s_done s))) as [|y l IH]; [contradiction|]. cbn in ND.
      inversion ND as [|? ? N ND']; subst. destruct I1 as [->|I1]; [apply N; apply in_or_app; auto|auto].
  - unfold alive in Al. rewrite X in Al. contradiction.
Qed.

(** If the wrapped connection never panics, the worker never dies and no client ever
    panics or gets a channel error. *)
Theorem C39_no_panic d s : (forall c d', exec run begin free c d' <> None) -> reachable d s ->
  s_worker s <> Died /\ s_panicked s = false /\ (forall n, ~ In (n, None) (s_results s)).
Proof.
  intros T. induction 1 as [|s s' Re IH H]; [cbn; repeat split; auto; discriminate|].
  destruct IH as (W & P & N).
  assert (Dd : forall a, (exists p, In (a, p) (s_adapters s)) -> ~ alive s -> False).
  { intros a (p & I) Na. unfold alive in Na. destruct (s_worker s) eqn:Ew; try tauto; try congruence.
    destruct (stopped_no_wait _ _ _ d s Re Ew) as [_ E]. rewrite E in I. exact I. }
  destruct H; cbn; auto;
    try (exfalso; eapply Dd; [destruct H0 as [X _]; exact X|assumption]);
    try (exfalso; congruence); try (exfalso; eapply T; eassumption).
  - repeat split; auto; discriminate.
  - repeat split; auto; discriminate.
  - repeat split; auto; discriminate.
  - destruct rep; cbn; rewrite P; repeat split; auto; intros m [E|I]; try discriminate; eapply N; eauto.
  - rewrite P. repeat split; auto.
  - destruct (drop_cases a (leave n None false s)) as [[-> _]|(_ & _ & ->)]; cbn; rewrite P; repeat split; auto.
Qed.
End C39.

(** * A small connection: it logs the calls on it; call 13 panics. *)
Definition log_run (ctx : nat) (x : nat) (d : list nat) : option (nat * list nat) :=
  if Nat.eqb x 13 then None else Some (x + length d, d ++ [x]).
Definition log_begin (ctx n : nat) (d : list nat) : option (option nat * list nat) := Some (None, d ++ [100]).
Definition log_free (ctx : nat) (d : list nat) : option (list nat) := Some (d ++ [50 + ctx]).
Notation lstate := (state (list nat) nat nat).
Notation lreach := (reachable log_run log_begin log_free []).

Ltac usable := split; [eexists; vm_compute; (left; reflexivity) || (right; left; reflexivity)|split;
   [intros (b & X); vm_compute in X; intuition discriminate|intros n k X; vm_compute in X; intuition congruence]].

(** Two clients call at once, the second call is sent while the first runs; then a
    transaction is started, used and dropped, and the connection is dropped. *)
Definition case_1 : lstate := post_and_wait 0 (OCall 5) WCall (init []).
Lemma case_1_reach : lreach case_1.
Proof. apply (re_step _ _ _ _ _ _ (re_init log_run log_begin log_free [])). apply (st_call _ _ _ _ 0 5 false); [exact Logic.I|usable]. Qed.
Definition case_2 : lstate := with_worker (Busy (Func 1 0 (OCall 5))) (List.tl (s_queue case_1)) case_1.
Lemma case_2_reach : lreach case_2.
Proof. apply (re_step _ _ _ _ _ _ case_1_reach). apply st_take; reflexivity. Qed.
Definition case_3 : lstate := post_and_wait 0 (OCall 7) WBlocking case_2.
Lemma case_3_reach : lreach case_3.
Proof. apply (re_step _ _ _ _ _ _ case_2_reach). apply (st_call _ _ _ _ 0 7 true); [exact Logic.I|usable]. Qed.
Definition case_4 : lstate := finished (Func 1 0 (OCall 5)) (Answer 5) [5] Idle (s_queue case_3) case_3.
Lemma case_4_reach : lreach case_4.
Proof. apply (re_step _ _ _ _ _ _ case_3_reach). apply st_done; reflexivity. Qed.
Definition case_5 : lstate := with_worker (Busy (Func 2 0 (OCall 7))) (List.tl (s_queue case_4)) case_4.
Lemma case_5_reach : lreach case_5.
Proof. apply (re_step _ _ _ _ _ _ case_4_reach). apply st_take; reflexivity. Qed.
Definition case_6 : lstate := finished (Func 2 0 (OCall 7)) (Answer 8) [5; 7] Idle (s_queue case_5) case_5.
Lemma case_6_reach : lreach case_6.
Proof. apply (re_step _ _ _ _ _ _ case_5_reach). apply st_done; reflexivity. Qed.
Definition case_7 : lstate := leave 2 (Some (Some (Answer 8))) false case_6.
Lemma case_7_reach : lreach case_7.
Proof. apply (re_step _ _ _ _ _ _ case_6_reach). apply (st_receive _ _ _ _ 2 0 WBlocking (Answer 8)); [vm_compute; auto|discriminate|vm_compute; auto]. Qed.
Definition case_8 : lstate := leave 1 (Some (Some (Answer 5))) false case_7.
Lemma case_8_reach : lreach case_8.
Proof. apply (re_step _ _ _ _ _ _ case_7_reach). apply (st_receive _ _ _ _ 1 0 WCall (Answer 5)); [vm_compute; auto|discriminate|vm_compute; auto]. Qed.
Definition case_9 : lstate := post_and_wait 0 OBegin WBegin case_8.
Lemma case_9_reach : lreach case_9.
Proof. apply (re_step _ _ _ _ _ _ case_8_reach). apply st_begin; [exact Logic.I|usable|vm_compute; auto]. Qed.
Definition case_10 : lstate := with_worker (Busy (Func 3 0 OBegin)) (List.tl (s_queue case_9)) case_9.
Lemma case_10_reach : lreach case_10.
Proof. apply (re_step _ _ _ _ _ _ case_9_reach). apply st_take; reflexivity. Qed.
Definition case_11 : lstate := finished (Func 3 0 OBegin) NewCtx [5; 7; 100] Idle (s_queue case_10) case_10.
Lemma case_11_reach : lreach case_11.
Proof. apply (re_step _ _ _ _ _ _ case_10_reach). apply st_done; reflexivity. Qed.
Definition case_12 : lstate := with_adapters ((3, Some 0) :: s_adapters case_11) (leave 3 (Some (Some NewCtx)) false case_11).
Lemma case_12_reach : lreach case_12.
Proof. apply (re_step _ _ _ _ _ _ case_11_reach). apply (st_receive _ _ _ _ 3 0 WBegin NewCtx); [vm_compute; auto|discriminate|vm_compute; auto]. Qed.
Definition case_13 : lstate := post_and_wait 3 (OCall 7) WCall case_12.
Lemma case_13_reach : lreach case_13.
Proof. apply (re_step _ _ _ _ _ _ case_12_reach). apply (st_call _ _ _ _ 3 7 false); [exact Logic.I|usable]. Qed.
Definition case_14 : lstate := with_worker (Busy (Func 4 3 (OCall 7))) (List.tl (s_queue case_13)) case_13.
Lemma case_14_reach : lreach case_14.
Proof. apply (re_step _ _ _ _ _ _ case_13_reach). apply st_take; reflexivity. Qed.
Definition case_15 : lstate := finished (Func 4 3 (OCall 7)) (Answer 10) [5; 7; 100; 7] Idle (s_queue case_14) case_14.
Lemma case_15_reach : lreach case_15.
Proof. apply (re_step _ _ _ _ _ _ case_14_reach). apply st_done; reflexivity. Qed.
Definition case_16 : lstate := leave 4 (Some (Some (Answer 10))) false case_15.
Lemma case_16_reach : lreach case_16.
Proof. apply (re_step _ _ _ _ _ _ case_15_reach). apply (st_receive _ _ _ _ 4 3 WCall (Answer 10)); [vm_compute; auto|discriminate|vm_compute; auto]. Qed.
Definition case_17 : lstate := post_and_wait 3 OFree WDrop case_16.
Lemma case_17_reach : lreach case_17.
Proof. apply (re_step _ _ _ _ _ _ case_16_reach). apply st_drop; [exact Logic.I|usable]. Qed.
Definition case_18 : lstate := with_worker (Busy (Func 5 3 OFree)) (List.tl (s_queue case_17)) case_17.
Lemma case_18_reach : lreach case_18.
Proof. apply (re_step _ _ _ _ _ _ case_17_reach). apply st_take; reflexivity. Qed.
Definition case_19 : lstate := finished (Func 5 3 OFree) Freed [5; 7; 100; 7; 53] Idle (s_queue case_18) case_18.
Lemma case_19_reach : lreach case_19.
Proof. apply (re_step _ _ _ _ _ _ case_18_reach). apply st_done; reflexivity. Qed.
Definition case_20 : lstate := drop_adapter 3 (leave 5 None false case_19).
Lemma case_20_reach : lreach case_20.
Proof. apply (re_step _ _ _ _ _ _ case_19_reach). apply (st_dropped _ _ _ _ 5 3 Freed); vm_compute; auto. Qed.
Definition case_21 : lstate := post_and_wait 0 OFree WDrop case_20.
Lemma case_21_reach : lreach case_21.
Proof. apply (re_step _ _ _ _ _ _ case_20_reach). apply st_drop; [exact Logic.I|usable]. Qed.
Definition case_22 : lstate := with_worker (Busy (Func 6 0 OFree)) (List.tl (s_queue case_21)) case_21.
Lemma case_22_reach : lreach case_22.
Proof. apply (re_step _ _ _ _ _ _ case_21_reach). apply st_take; reflexivity. Qed.
Definition case_23 : lstate := finished (Func 6 0 OFree) Freed [5; 7; 100; 7; 53; 50] Idle (s_queue case_22) case_22.
Lemma case_23_reach : lreach case_23.
Proof. apply (re_step _ _ _ _ _ _ case_22_reach). apply st_done; reflexivity. Qed.
Definition case_24 : lstate := drop_adapter 0 (leave 6 None false case_23).
Lemma case_24_reach : lreach case_24.
Proof. apply (re_step _ _ _ _ _ _ case_23_reach). apply (st_dropped _ _ _ _ 6 0 Freed); vm_compute; auto. Qed.
Definition case_25 : lstate := finished Shutdown Bye (s_db case_24) Stopped [] case_24.
Lemma case_25_reach : lreach case_25.
Proof. apply (re_step _ _ _ _ _ _ case_24_reach). apply (st_stop _ _ _ _ []); reflexivity. Qed.
Example C39_case : lreach case_25 /\ s_worker case_25 = Stopped /\ s_panicked case_25 = false /\
  s_results case_25 = [(4, Some (Answer 10)); (3, Some NewCtx); (1, Some (Answer 5)); (2, Some (Answer 8))] /\
  s_db case_25 = [5; 7; 100; 7; 53; 50].
Proof. split; [exact case_25_reach|]. repeat split; vm_compute; reflexivity. Qed.

(** Dropping the future of a call does not withdraw the call: the command stays in the
    queue although nobody keeps what it borrows alive, and is executed. *)
Definition cancel_1 : lstate := post_and_wait 0 (OCall 5) WCall (init []).
Lemma cancel_1_reach : lreach cancel_1.
Proof. apply (re_step _ _ _ _ _ _ (re_init log_run log_begin log_free [])). apply (st_call _ _ _ _ 0 5 false); [exact Logic.I|usable]. Qed.
Definition cancel_2 : lstate := mark_gone 1 (leave 1 None false cancel_1).
Lemma cancel_2_reach : lreach cancel_2.
Proof. apply (re_step _ _ _ _ _ _ cancel_1_reach). apply (st_cancel _ _ _ _ 1 0 WCall); [vm_compute; auto|auto]. Qed.
Definition cancel_3 : lstate := with_worker (Busy (Func 1 0 (OCall 5))) (List.tl (s_queue cancel_2)) cancel_2.
Lemma cancel_3_reach : lreach cancel_3.
Proof. apply (re_step _ _ _ _ _ _ cancel_2_reach). apply st_take; reflexivity. Qed.
Definition cancel_4 : lstate := finished (Func 1 0 (OCall 5)) (Answer 5) [5] Idle (s_queue cancel_3) cancel_3.
Lemma cancel_4_reach : lreach cancel_4.
Proof. apply (re_step _ _ _ _ _ _ cancel_3_reach). apply st_done; reflexivity. Qed.
Theorem C39_dangling_refuted : exists s : lstate, lreach s /\ alive s /\
  In (Func 1 0 (OCall 5)) (s_queue s) /\ waits 1 s = false.
Proof. exists cancel_2. split; [exact cancel_2_reach|]. repeat split; vm_compute; auto. Qed.
Theorem C39_cancelled_call_runs_refuted : exists s : lstate, lreach s /\
  s_db s = [5] /\ s_results s = [] /\ s_wait s = [] /\ s_gone s = [1].
Proof. exists cancel_4. split; [exact cancel_4_reach|]. repeat split; vm_compute; reflexivity. Qed.

(** Dropping the future that starts a transaction leaves a transaction that is never
    ended: it was started, and when everything is over it has not been dropped. *)
Definition leak_1 : lstate := post_and_wait 0 OBegin WBegin (init []).
Lemma leak_1_reach : lreach leak_1.
Proof. apply (re_step _ _ _ _ _ _ (re_init log_run log_begin log_free [])). apply st_begin; [exact Logic.I|usable|vm_compute; auto]. Qed.
Definition leak_2 : lstate := mark_gone 1 (leave 1 None false leak_1).
Lemma leak_2_reach : lreach leak_2.
Proof. apply (re_step _ _ _ _ _ _ leak_1_reach). apply (st_cancel _ _ _ _ 1 0 WBegin); [vm_compute; auto|auto]. Qed.
Definition leak_3 : lstate := with_worker (Busy (Func 1 0 OBegin)) (List.tl (s_queue leak_2)) leak_2.
Lemma leak_3_reach : lreach leak_3.
Proof. apply (re_step _ _ _ _ _ _ leak_2_reach). apply st_take; reflexivity. Qed.
Definition leak_4 : lstate := finished (Func 1 0 OBegin) NewCtx [100] Idle (s_queue leak_3) leak_3.
Lemma leak_4_reach : lreach leak_4.
Proof. apply (re_step _ _ _ _ _ _ leak_3_reach). apply st_done; reflexivity. Qed.
Definition leak_5 : lstate := post_and_wait 0 OFree WDrop leak_4.
Lemma leak_5_reach : lreach leak_5.
Proof. apply (re_step _ _ _ _ _ _ leak_4_reach). apply st_drop; [exact Logic.I|usable]. Qed.
Definition leak_6 : lstate := with_worker (Busy (Func 2 0 OFree)) (List.tl (s_queue leak_5)) leak_5.
Lemma leak_6_reach : lreach leak_6.
Proof. apply (re_step _ _ _ _ _ _ leak_5_reach). apply st_take; reflexivity. Qed.
Definition leak_7 : lstate := finished (Func 2 0 OFree) Freed [100; 50] Idle (s_queue leak_6) leak_6.
Lemma leak_7_reach : lreach leak_7.
Proof. apply (re_step _ _ _ _ _ _ leak_6_reach). apply st_done; reflexivity. Qed.
Definition leak_8 : lstate := drop_adapter 0 (leave 2 None false leak_7).
Lemma leak_8_reach : lreach leak_8.
Proof. apply (re_step _ _ _ _ _ _ leak_7_reach). apply (st_dropped _ _ _ _ 2 0 Freed); vm_compute; auto. Qed.
Definition leak_9 : lstate := finished Shutdown Bye (s_db leak_8) Stopped [] leak_8.
Lemma leak_9_reach : lreach leak_9.
Proof. apply (re_step _ _ _ _ _ _ leak_8_reach). apply (st_stop _ _ _ _ []); reflexivity. Qed.
Theorem C39_cancelled_transaction_refuted : exists s : lstate, lreach s /\ s_worker s = Stopped /\
  In (Func 1 0 OBegin, NewCtx) (s_done s) /\ times_freed 1 (s_sent s) = 0.
Proof. exists leak_9. split; [exact leak_9_reach|]. repeat split; vm_compute; auto. Qed.

(** A panic inside one call ends the worker: the connection is never dropped, and the
    client that drops the adapter panics. *)
Definition panic_1 : lstate := post_and_wait 0 (OCall 13) WCall (init []).
Lemma panic_1_reach : lreach panic_1.
Proof. apply (re_step _ _ _ _ _ _ (re_init log_run log_begin log_free [])). apply (st_call _ _ _ _ 0 13 false); [exact Logic.I|usable]. Qed.
Definition panic_2 : lstate := with_worker (Busy (Func 1 0 (OCall 13))) (List.tl (s_queue panic_1)) panic_1.
Lemma panic_2_reach : lreach panic_2.
Proof. apply (re_step _ _ _ _ _ _ panic_1_reach). apply st_take; reflexivity. Qed.
Definition panic_3 : lstate := with_worker Died [] panic_2.
Lemma panic_3_reach : lreach panic_3.
Proof. apply (re_step _ _ _ _ _ _ panic_2_reach). eapply st_die; reflexivity. Qed.
Definition panic_4 : lstate := leave 1 (Some None) false panic_3.
Lemma panic_4_reach : lreach panic_4.
Proof. apply (re_step _ _ _ _ _ _ panic_3_reach). apply (st_lost _ _ _ _ 1 0 WCall); [vm_compute; auto|discriminate|reflexivity|vm_compute; auto]. Qed.
Definition panic_5 : lstate := panic_here (drop_adapter 0 panic_4).
Lemma panic_5_reach : lreach panic_5.
Proof. apply (re_step _ _ _ _ _ _ panic_4_reach). apply st_drop_dead; [vm_compute; auto|usable]. Qed.
Theorem C39_panic_refuted : exists s : lstate, lreach s /\ s_worker s = Died /\
  s_adapters s = [] /\ s_panicked s = true /\ times_freed 0 (s_sent s) = 0.
Proof. exists panic_5. split; [exact panic_5_reach|]. repeat split; vm_compute; reflexivity. Qed.

Print Assumptions C39_in_order.
Print Assumptions C39_once.
Print Assumptions C39_own_result.
Print Assumptions C39_waits_for_own.
Print Assumptions C39_progress.
Print Assumptions C39_panic_stays.
Print Assumptions C39_context_lifetime.
Print Assumptions C39_freed_once.
Print Assumptions C39_transaction_first.
Print Assumptions C39_shutdown_last.
Print Assumptions C39_stopped.
Print Assumptions C39_borrowed_or_gone.
Print Assumptions C39_no_panic.
Print Assumptions C39_dangling_refuted.
Print Assumptions C39_cancelled_call_runs_refuted.
Print Assumptions C39_cancelled_transaction_refuted.
Print Assumptions C39_panic_refuted.
