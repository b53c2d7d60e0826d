(** Proofs about the async adapter. *)
From Verif Require Import Base Adapter AdapterSpec.
From Coq Require Import Lia.

Section P.
Context {D A R : Type}.
Variable run : nat -> A -> D -> option (R * D).
Variable begin : nat -> nat -> D -> option (option R * D).
Variable free : nat -> D -> option D.
Notation step := (step run begin free).
Notation reachable := (reachable run begin free).
Notation exec := (exec run begin free).
Notation sequentially := (sequentially run begin free).
Implicit Types s : state D A R.

Local Arguments without {B} : simpl never.
Local Arguments no_wait : simpl never.
Lemma drop_cases a s :
  (drop_adapter a s = with_adapters (without a (s_adapters s)) s /\
   (without a (s_adapters s) <> [] \/ ~ alive s)) \/
  (without a (s_adapters s) = [] /\ alive s /\ drop_adapter a s = post Shutdown (with_adapters (without a (s_adapters s)) s)).
Proof.
  unfold drop_adapter, alive. destruct (without a (s_adapters s)) eqn:E.
  - destruct (s_worker s); auto.
  - left. split; [reflexivity|left; discriminate].
Qed.
Ltac drops := match goal with
  | |- context[drop_adapter ?a ?s] => let E := fresh "Ed" in destruct (drop_cases a s) as [[E ?]|(? & ? & E)]; rewrite E in *; clear E; cbn in *
  end.
Ltac reps := match goal with
  | |- context[match ?r with Answer _ => _ | NewCtx => _ | Freed => _ | Bye => _ end] => destruct r
  end.
Ltac bystep H := inversion H; subst; clear H; try drops; try reps.

(** * Order and sequential execution *)

Definition fifo s : Prop :=
  match s_worker s with
  | Idle => s_sent s = map fst (s_done s) ++ s_queue s
  | Busy c => s_sent s = map fst (s_done s) ++ c :: s_queue s
  | Stopped => exists rest, s_sent s = map fst (s_done s) ++ rest /\ s_queue s = []
  | Died => s_queue s = [] /\ exists c rest, s_sent s = map fst (s_done s) ++ c :: rest
  end.

Lemma app_cons_snoc {B} (a : list B) x b y : a ++ x :: b ++ [y] = (a ++ x :: b) ++ [y].
Proof. rewrite <- app_assoc. reflexivity. Qed.

Lemma fifo_step s s' : fifo s -> step s s' -> fifo s'.
Proof.
  intros F H. bystep H; unfold fifo, alive in *; cbn in *; auto;
    try (destruct (s_worker s); try contradiction; rewrite F, ?app_assoc, ?app_cons_snoc; reflexivity).
  - rewrite H0 in F. rewrite H1 in F. exact F.
  - rewrite H0, H1 in F. exists q. split; [|reflexivity]. rewrite F, map_app, <- app_assoc. reflexivity.
  - rewrite H0 in F. rewrite F, map_app, <- app_assoc. reflexivity.
  - rewrite H0 in F. split; [reflexivity|]. eauto.
Qed.

Lemma exec_does c d rep d' : exec c d = Some (rep, d') -> does run begin free c d rep d'.
Proof.
  destruct c as [n ctx [a| |]|]; cbn; intros E.
  - destruct (run ctx a d) as [[r x]|] eqn:Er; [|discriminate]. injection E as <- <-. now constructor.
  - destruct (begin ctx n d) as [[[r|] x]|] eqn:Eb; [| |discriminate]; injection E as <- <-; now constructor.
  - destruct (free ctx d) as [x|] eqn:Ef; [|discriminate]. injection E as <- <-. now constructor.
  - injection E as <- <-. constructor.
Qed.
Lemma seq_snoc d cs reps d1 c rep d2 : sequentially d cs reps d1 -> exec c d1 = Some (rep, d2) ->
  sequentially d (cs ++ [c]) (reps ++ [rep]) d2.
Proof.
  induction 1; intros E.
  - cbn. econstructor; [apply exec_does, E|constructor].
  - cbn. econstructor; [eassumption|auto].
Qed.
Definition seq_inv d0 s : Prop := sequentially d0 (map fst (s_done s)) (map snd (s_done s)) (s_db s).
Lemma seq_step d0 s s' : seq_inv d0 s -> step s s' -> seq_inv d0 s'.
Proof.
  intros F H. bystep H; unfold seq_inv in *; cbn in *; auto.
  - rewrite !map_app. eapply seq_snoc; [exact F|]. reflexivity.
  - rewrite !map_app. eapply seq_snoc; [exact F|]. assumption.
Qed.

(** * Numbers *)
Definition ids (l : list (cmd A)) : list nat :=
  flat_map (fun c => match c with Func n _ _ => [n] | Shutdown => [] end) l.
Lemma ids_app a b : ids (a ++ b) = ids a ++ ids b.
Proof using. apply flat_map_app. Qed.
Lemma ids_in n l : In n (ids l) <-> exists a o, In (Func n a o) l.
Proof using.
  unfold ids. rewrite in_flat_map. split.
  - intros ([m a o|] & I & E); cbn in E; [|contradiction]. destruct E as [->|[]]. eauto.
  - intros (a & o & I). exists (Func n a o). cbn. auto.
Qed.
Lemma NoDup_snoc {B} (l : list B) x : NoDup l -> ~ In x l -> NoDup (l ++ [x]).
Proof.
  induction 1 as [|y l N ND IH]; cbn; intros I; [repeat constructor; auto|].
  constructor; [rewrite in_app_iff; cbn; intuition|apply IH; intuition].
Qed.
Definition ids_inv s : Prop :=
  0 < s_next s /\ NoDup (ids (s_sent s)) /\
  (forall n, In n (ids (s_sent s)) -> 0 < n < s_next s) /\
  (forall n r, In (n, r) (s_results s) -> 0 < n < s_next s) /\
  (forall n a k, In (n, a, k) (s_wait s) -> 0 < n < s_next s).
Lemma in_no_wait x n l : In x (no_wait n l) <-> In x l /\ fst (fst x) <> n.
Proof using. unfold no_wait. rewrite filter_In, negb_true_iff, Nat.eqb_neq. reflexivity. Qed.
Lemma in_without {B} x n (l : list (nat * B)) : In x (without n l) <-> In x l /\ fst x <> n.
Proof using. unfold without, other. rewrite filter_In, negb_true_iff, Nat.eqb_neq. reflexivity. Qed.
Lemma waits_iff n s : waits n s = true <-> exists a k, In (n, a, k) (s_wait s).
Proof using.
  unfold waits. rewrite existsb_exists. split.
  - intros ([[m a] k] & I & E). apply Nat.eqb_eq in E. cbn in E. subst m. eauto.
  - intros (a & k & I). exists (n, a, k). split; [exact I|]. cbn. apply Nat.eqb_refl.
Qed.

Lemma ids_step s s' : ids_inv s -> step s s' -> ids_inv s'.
Proof.
  intros (P & N & L & Rs & W) H. bystep H; unfold ids_inv in *; cbn in *; (split; [lia|]);
    rewrite ?ids_app; cbn; rewrite ?app_nil_r;
    (split; [solve [auto | apply NoDup_snoc; [exact N|intros X; apply L in X; lia]]|]);
    (split; [intros m Hm; rewrite ?in_app_iff in Hm; cbn in Hm; try destruct Hm as [Hm|[<-|[]]]; try apply L in Hm; lia|]);
    split.
  all: try (intros m r9 Hm; cbn in Hm; try destruct Hm as [[= <- _]|Hm]; try apply Rs in Hm; lia).
  all: try (intros m a1 k1 Hm; cbn in Hm; rewrite ?in_no_wait in Hm;
      try (destruct Hm as [[= <- _ _]|Hm]); try destruct Hm as [Hm _]; try apply W in Hm; lia).
  all: try (intros m r9 Hm; destruct Hm as [[= <- _]|Hm]; [apply W in H0; lia|apply Rs in Hm; lia]).
Qed.
Lemma reach_fifo d s : reachable d s -> fifo s.
Proof. induction 1; [reflexivity|eapply fifo_step; eassumption]. Qed.
Lemma reach_seq d s : reachable d s -> seq_inv d s.
Proof. induction 1; [constructor|eapply seq_step; eassumption]. Qed.
Lemma reach_ids d s : reachable d s -> ids_inv s.
Proof.
  induction 1; [|eapply ids_step; eassumption]. unfold ids_inv. cbn.
  repeat split; try lia; try constructor; intros; contradiction.
Qed.
Lemma ids_unique l n a o a' o' : NoDup (ids l) -> In (Func n a o) l -> In (Func n a' o') l -> a = a' /\ o = o'.
Proof.
  induction l as [|c l IH]; cbn; [contradiction|]. intros ND I I'.
  destruct c as [m b q|]; cbn in ND.
  - inversion ND as [|? ? Nn ND']; subst.
    assert (X : forall a o, In (Func n a o) l -> m <> n).
    { intros ? ? Ix ->. apply Nn. rewrite ids_in. eauto. }
    destruct I as [E|I], I' as [E'|I']; try congruence.
    + inversion E; inversion E'; subst; auto.
    + inversion E; subst. exfalso. eapply X; eauto.
    + inversion E'; subst. exfalso. eapply X; eauto.
    + auto.
  - destruct I as [E|I]; [discriminate|]. destruct I' as [E|I']; [discriminate|]. auto.
Qed.
Lemma done_sent d s c rep : reachable d s -> In (c, rep) (s_done s) -> In c (s_sent s).
Proof.
  intros Re I. apply (in_map fst) in I. cbn in I. pose proof (reach_fifo d s Re) as F. unfold fifo in F.
  destruct (s_worker s); [| |destruct F as (? & F & _)|destruct F as (_ & ? & ? & F)]; rewrite F; apply in_or_app; auto.
Qed.
Lemma busy_not_done d s n a o : reachable d s -> s_worker s = Busy (Func n a o) ->
  In (Func n a o) (s_sent s) /\ (forall a' o' rep, ~ In (Func n a' o', rep) (s_done s)).
Proof.
  intros Re W. pose proof (reach_fifo d s Re) as F. unfold fifo in F. rewrite W in F.
  destruct (reach_ids d s Re) as (_ & ND & _). rewrite F, ids_app in ND. cbn in ND.
  rewrite F. split; [apply in_or_app; right; left; reflexivity|].
  intros a' o' rep I. apply (in_map fst) in I. cbn in I.
  apply NoDup_remove_2 in ND. apply ND. apply in_or_app. left. rewrite ids_in. eauto.
Qed.
Lemma sent_done d s n a o rep : reachable d s -> In (Func n a o) (s_sent s) ->
  (exists a' o', In (Func n a' o', rep) (s_done s)) -> In (Func n a o, rep) (s_done s).
Proof.
  intros Re I (a' & o' & I'). destruct (ids_unique (s_sent s) n a o a' o') as [-> ->]; auto.
  - apply (reach_ids d s Re).
  - eapply done_sent; eassumption.
Qed.

(** * Clients and answers *)
Definition kind_op (k : wkind) (o : op A) : Prop :=
  match k, o with
  | WCall, OCall _ | WBlocking, OCall _ | WBegin, OBegin | WDrop, OFree => True
  | _, _ => False
  end.
Definition wids s := map (fun x : nat * nat * wkind => fst (fst x)) (s_wait s).
Lemma NoDup_filter_map {B C} (f : B -> C) g l : NoDup (map f l) -> NoDup (map f (filter g l)).
Proof.
  induction l as [|x l IH]; cbn; [auto|]. intros ND. inversion ND as [|? ? N ND']; subst.
  destruct (g x); [|auto]. cbn. constructor; [|auto].
  intros I. apply N. apply in_map_iff in I. destruct I as (y & E & I). apply filter_In in I.
  apply in_map_iff. exists y. tauto.
Qed.
Lemma wids_in n s : In n (wids s) <-> exists a k, In (n, a, k) (s_wait s).
Proof.
  unfold wids. rewrite in_map_iff. split.
  - intros ([[m a] k] & E & I). cbn in E. subst. eauto.
  - intros (a & k & I). exists (n, a, k). auto.
Qed.

Lemma reach_wids d s : reachable d s -> NoDup (wids s).
Proof.
  induction 1 as [|s s' Re IH H]; [constructor|].
  destruct (reach_ids d s Re) as (_ & _ & _ & _ & W).
  unfold wids in *. bystep H; cbn; auto; try (apply NoDup_filter_map; exact IH);
    (constructor; [intros I; apply wids_in in I; destruct I as (x1 & x2 & I); apply W in I; lia|exact IH]).
Qed.
Lemma wait_unique d s n a k a' k' : reachable d s -> In (n, a, k) (s_wait s) -> In (n, a', k') (s_wait s) -> a = a' /\ k = k'.
Proof.
  intros Re. pose proof (reach_wids d s Re) as ND. unfold wids in ND. revert ND. generalize (s_wait s). clear.
  induction l as [|[[m b] q] l IH]; cbn; [contradiction|]. intros ND I I'. inversion ND as [|? ? N ND']; subst.
  assert (X : forall a k, In (n, a, k) l -> m <> n).
  { intros ? ? Ix ->. apply N. apply in_map_iff. exists (n, a0, k0). auto. }
  destruct I as [E|I], I' as [E'|I'].
  - inversion E; inversion E'; subst; auto.
  - inversion E; subst. exfalso. eapply X; eauto.
  - inversion E'; subst. exfalso. eapply X; eauto.
  - auto.
Qed.

Lemma reach_wait_cmd d s : reachable d s -> forall n a k, In (n, a, k) (s_wait s) ->
  exists o, In (Func n a o) (s_sent s) /\ kind_op k o.
Proof.
  induction 1 as [|s s' Re IH H]; [contradiction|].
  intros n a k I.
  bystep H; cbn in *; rewrite ?in_no_wait in I; try (destruct I as [I _]);
   try (destruct (IH _ _ _ I) as (o9 & I9 & K9); exists o9; split; [try apply in_or_app; auto|exact K9]; fail).
  all: destruct I as [E|I]; [injection E as <- <- <-|destruct (IH _ _ _ I) as (o9 & I9 & K9); exists o9; split; [apply in_or_app; auto|exact K9]].
  all: eexists; split; [apply in_or_app; right; left; reflexivity|try destruct blocking; exact Logic.I].
Qed.

Lemma reach_reply d s : reachable d s -> forall n rep, In (n, rep) (s_replies s) ->
  waits n s = true /\ exists a o, In (Func n a o, rep) (s_done s).
Proof.
  induction 1 as [|s s' Re IH H]; [contradiction|].
  intros n rep0 I. rewrite waits_iff.
  assert (IHw : forall n rep, In (n, rep) (s_replies s) -> exists a k, In (n, a, k) (s_wait s)).
  { intros n1 rep1 I1. apply waits_iff. eapply IH; eauto. }
  bystep H; cbn in *; rewrite ?in_without in I; try (destruct I as [I Ne]; cbn in Ne);
    try (destruct (IH _ _ I) as (W9 & a9 & o9 & D9); apply waits_iff in W9; destruct W9 as (a8 & k8 & W9));
    try (split; [exists a8, k8; rewrite ?in_no_wait; auto|exists a9, o9; auto]; fail).
  - split; [exists a8, k8; auto|exists a9, o9; apply in_or_app; auto].
  - destruct c as [m b q|].
    + destruct (waits m s) eqn:Wm; [destruct I as [E|I]; [injection E as <- <-|]|].
      * apply waits_iff in Wm. split; [exact Wm|]. exists b, q. apply in_or_app. right. left. reflexivity.
      * destruct (IH _ _ I) as (W9 & a9 & o9 & D9). split; [eapply IHw; exact I|]. exists a9, o9. apply in_or_app; auto.
      * destruct (IH _ _ I) as (W9 & a9 & o9 & D9). split; [eapply IHw; exact I|]. exists a9, o9. apply in_or_app; auto.
    + destruct (IH _ _ I) as (W9 & a9 & o9 & D9). split; [eapply IHw; exact I|]. exists a9, o9. apply in_or_app; auto.
Qed.

Lemma reach_replied d s : reachable d s -> forall n a k, In (n, a, k) (s_wait s) ->
  forall rep, (exists a' o, In (Func n a' o, rep) (s_done s)) -> In (n, rep) (s_replies s).
Proof.
  induction 1 as [|s s' Re IH H]; [contradiction|].
  intros n a k I rep0 (a' & o & Dn).
  assert (New : forall rep a o, ~ In (Func (s_next s) a o, rep) (s_done s)).
  { intros r1 a1 o1 X. apply (done_sent d s _ _ Re) in X.
    destruct (reach_ids d s Re) as (_ & _ & L & _). specialize (L (s_next s)). rewrite ids_in in L.
    assert (0 < s_next s < s_next s) by eauto. lia. }
  bystep H; cbn in *; rewrite ?in_no_wait in I; try (destruct I as [I Ne]; cbn in Ne; rewrite in_without);
   try (destruct I as [E|I]; [injection E as <- <- <-; exfalso; eapply New; exact Dn|]);
   try (split; [|exact Ne]); try (eapply IH; eauto; fail).
  - apply in_app_iff in Dn. destruct Dn as [Dn|[E|[]]]; [eapply IH; eauto|discriminate].
  - apply in_app_iff in Dn. destruct Dn as [Dn|[E|[]]].
    + destruct c as [m b q|]; [|eapply IH; eauto]. destruct (waits m s); [right|]; eapply IH; eauto.
    + injection E as -> ->. replace (waits n s) with true; [left; reflexivity|]. symmetry. apply waits_iff. eauto.
Qed.

Lemma reach_replies_nd d s : reachable d s -> NoDup (map fst (s_replies s)).
Proof.
  induction 1 as [|s s' Re IH H]; [constructor|].
  bystep H; cbn; auto; try (apply NoDup_filter_map; exact IH).
  destruct c as [m b q|]; [|exact IH]. destruct (waits m s); [|exact IH].
  cbn. constructor; [|exact IH]. intros I. apply in_map_iff in I. destruct I as ([n1 r1] & E & I). cbn in E. subst n1.
  destruct (reach_reply d s Re m r1 I) as (_ & a1 & o1 & Dn).
  destruct (busy_not_done d s m b q Re H0) as [_ Nd]. eapply Nd; exact Dn.
Qed.

Lemma reach_results d s : reachable d s ->
  NoDup (map fst (s_results s)) /\
  (forall n r, In (n, r) (s_results s) -> forall a k, ~ In (n, a, k) (s_wait s)) /\
  (forall n rep, In (n, Some rep) (s_results s) -> exists a o, In (Func n a o, rep) (s_done s)).
Proof.
  induction 1 as [|s s' Re IH H]; [repeat split; [constructor|contradiction|contradiction]|].
  destruct IH as (ND & NW & Fr). destruct (reach_ids d s Re) as (_ & _ & _ & Lr & Lw).
  assert (NewR : ~ In (s_next s) (map fst (s_results s))).
  { intros X. apply in_map_iff in X. destruct X as ([n1 r1] & E & X). cbn in E. subst. apply Lr in X. lia. }
  assert (NewW : forall a k, ~ In (s_next s, a, k) (s_wait s)) by (intros a1 k1 X; apply Lw in X; lia).
  assert (Ww : forall n a k, In (n, a, k) (s_wait s) -> ~ In n (map fst (s_results s))).
  { intros n1 a1 k1 X Y. apply in_map_iff in Y. destruct Y as ([n2 r2] & E & Y). cbn in E. subst. eapply NW; eauto. }
  assert (Rp : forall n rep, In (n, rep) (s_replies s) -> exists a o, In (Func n a o, rep) (s_done s)).
  { intros n1 r1 X. eapply reach_reply; eauto. }
  bystep H; cbn in *; split; try split; try exact ND; try exact Fr; try exact NW;
    try (constructor; [assumption || (eapply Ww; eassumption)|exact ND]);
    try (intros m r9 I a1 k1 J; rewrite ?in_no_wait in J; cbn in *;
         try (destruct J as [J Ne]); try (destruct J as [[= <- <- <-]|J]); try (destruct I as [[= <- <-]|I]);
         solve [ exfalso; eapply NewW; eassumption | apply Lr in I; lia | eapply NW; eassumption | congruence ]);
    try (intros m r9 I; try (destruct I as [[= <- <-]|I]); try discriminate; solve [eapply Rp; eassumption | eapply Fr; eassumption ]).
  all: intros m r9 I; try (destruct I as [I|I]; [discriminate|]); destruct (Fr _ _ I) as (a9 & o9 & X); exists a9, o9; try (apply in_or_app; left); exact X.
Qed.

(** * Adapters *)
Lemma kind_call_not k : (k = WBegin \/ k = WDrop) -> ~ (k = WCall \/ k = WBlocking).
Proof. intuition congruence. Qed.


Lemma newctx_begin d s n a o : reachable d s -> In (Func n a o, NewCtx) (s_done s) -> o = OBegin.
Proof.
  intros Re. pose proof (reach_seq d s Re) as Sq. unfold seq_inv in Sq. generalize dependent (s_db s).
  clear Re. revert d. induction (s_done s) as [|[c rep] l IH]; cbn; [contradiction|].
  intros d d2 Sq [E|I].
  - injection E as -> ->. inversion Sq as [|? ? ? ? ? ? ? Dd _]; subst. now inversion Dd.
  - inversion Sq; subst. eapply IH; eauto.
Qed.
Lemma newctx_kind d s n a k : reachable d s -> In (n, a, k) (s_wait s) -> In (n, NewCtx) (s_replies s) ->
  k = WBegin /\ In (Func n a OBegin, NewCtx) (s_done s).
Proof.
  intros Re W Rp. destruct (reach_wait_cmd d s Re n a k W) as (o & I & K).
  destruct (reach_reply d s Re n NewCtx Rp) as (_ & a' & o' & Dn).
  assert (Dn' : In (Func n a o, NewCtx) (s_done s)) by (eapply sent_done; eauto).
  pose proof (newctx_begin d s n a o Re Dn') as ->. split; [|exact Dn'].
  destruct k; cbn in K; contradiction || reflexivity.
Qed.

Lemma reach_excl d s : reachable d s ->
  (forall n a k, In (n, a, k) (s_wait s) -> exists p, In (a, p) (s_adapters s)) /\
  (forall n a k, In (n, a, k) (s_wait s) -> k = WBegin \/ k = WDrop -> forall n' k', In (n', a, k') (s_wait s) -> n' = n) /\
  (forall b a, In (b, Some a) (s_adapters s) -> forall n k, ~ In (n, a, k) (s_wait s)).
Proof.
  induction 1 as [|s s' Re IH H].
  { repeat split; cbn; try contradiction. intros b a [E|[]]; discriminate. }
  destruct IH as (Wa & Ex & Kid).
  assert (Nk : forall n a k, In (n, a, k) (s_wait s) -> In (n, NewCtx) (s_replies s) -> k = WBegin)
    by (intros n1 a1 k1 X Y; eapply (newctx_kind d s); eauto).
  assert (Rest : forall n, (forall m a k, In (m, a, k) (no_wait n (s_wait s)) -> exists p, In (a, p) (s_adapters s)) /\
     (forall m a k, In (m, a, k) (no_wait n (s_wait s)) -> k = WBegin \/ k = WDrop ->
        forall n' k', In (n', a, k') (no_wait n (s_wait s)) -> n' = m) /\
     (forall b a, In (b, Some a) (s_adapters s) -> forall m k, ~ In (m, a, k) (no_wait n (s_wait s)))).
  { intros n. repeat split.
    - intros m a k I. apply in_no_wait in I. destruct I as [I _]. eauto.
    - intros m a k I K n' k' I'. apply in_no_wait in I, I'. destruct I as [I _], I' as [I' _]. eauto.
    - intros b a I m k J. apply in_no_wait in J. destruct J as [J _]. eapply Kid; eauto. }
  assert (Dr : forall n a, (forall m k, ~ In (m, a, k) (no_wait n (s_wait s))) ->
     (forall m b k, In (m, b, k) (no_wait n (s_wait s)) -> exists p, In (b, p) (without a (s_adapters s))) /\
     (forall m b k, In (m, b, k) (no_wait n (s_wait s)) -> k = WBegin \/ k = WDrop ->
        forall n' k', In (n', b, k') (no_wait n (s_wait s)) -> n' = m) /\
     (forall b c, In (b, Some c) (without a (s_adapters s)) -> forall m k, ~ In (m, c, k) (no_wait n (s_wait s)))).
  { intros n a No. destruct (Rest n) as (R1 & R2 & R3). repeat split.
    - intros m b k I. destruct (R1 _ _ _ I) as (p & Ip). exists p. apply in_without. split; [exact Ip|].
      cbn. intros ->. eapply No; eauto.
    - exact R2.
    - intros b c I. apply in_without in I. destruct I as [I _]. exact (R3 b c I). }
  assert (DrA : forall a, (forall m k, ~ In (m, a, k) (s_wait s)) ->
     (forall m b k, In (m, b, k) (s_wait s) -> exists p, In (b, p) (without a (s_adapters s))) /\
     (forall m b k, In (m, b, k) (s_wait s) -> k = WBegin \/ k = WDrop ->
        forall n' k', In (n', b, k') (s_wait s) -> n' = m) /\
     (forall b c, In (b, Some c) (without a (s_adapters s)) -> forall m k, ~ In (m, c, k) (s_wait s))).
  { intros a No. repeat split.
    - intros m b k I. destruct (Wa _ _ _ I) as (p & Ip). exists p. apply in_without. split; [exact Ip|].
      cbn. intros ->. eapply No; eauto.
    - exact Ex.
    - intros b c I. apply in_without in I. destruct I as [I _]. exact (Kid b c I). }
  assert (Add : forall a k, (exists p, In (a, p) (s_adapters s)) -> ~ child_of a s ->
     (forall m j, In (m, a, j) (s_wait s) -> (k = WCall \/ k = WBlocking) /\ (j = WCall \/ j = WBlocking)) ->
     (forall n b j, (s_next s, a, k) = (n, b, j) \/ In (n, b, j) (s_wait s) -> exists p, In (b, p) (s_adapters s)) /\
     (forall n b j, (s_next s, a, k) = (n, b, j) \/ In (n, b, j) (s_wait s) -> j = WBegin \/ j = WDrop ->
        forall n' j', (s_next s, a, k) = (n', b, j') \/ In (n', b, j') (s_wait s) -> n' = n) /\
     (forall b c, In (b, Some c) (s_adapters s) -> forall n j, ~ ((s_next s, a, k) = (n, c, j) \/ In (n, c, j) (s_wait s)))).
  { intros a k Ha Nc Al. repeat split.
    - intros n b j [E|I]; [injection E as <- <- <-; exact Ha|eauto].
    - intros n b j [E|I] K n' j' [E'|I'].
      + congruence.
      + injection E as <- <- <-. apply Al in I'. destruct I' as [X _]. exfalso. revert X. apply kind_call_not, K.
      + injection E' as <- <- <-. apply Al in I. destruct I as [_ X]. exfalso. revert X. apply kind_call_not, K.
      + eauto.
    - intros b c I n j [E|J]; [injection E as <- <- <-; apply Nc; exists b; exact I|eapply Kid; eauto]. }
  assert (Leave : forall n a k, In (n, a, k) (s_wait s) -> k = WBegin \/ k = WDrop ->
      forall m j, ~ In (m, a, j) (no_wait n (s_wait s))).
  { intros n a k I K m j J. apply in_no_wait in J. destruct J as [J Ne]. apply Ne. cbn. eapply Ex; eauto. }
  bystep H; cbn in *;
    try (split; [exact Wa|split; [exact Ex|exact Kid]]);
    try apply Rest;
    try (destruct H1 as (P1 & P2 & P3); apply Add; [exact P1|exact P2|];
         try (intros m j I; exfalso; eapply P3; exact I);
         try (intros m j I; split; [destruct blocking; auto|eapply P3; exact I]));
    try (apply DrA; destruct H1 as (P1 & P2 & P3); exact P3);
    try (apply Dr; eapply Leave; [eassumption|auto]).
  (* a new transaction *)
  pose proof (Nk _ _ _ H0 H2) as ->. destruct (Rest n) as (R1 & R2 & R3). repeat split.
  - intros m b k I. destruct (R1 _ _ _ I) as (p & Ip). eauto.
  - exact R2.
  - intros b c [E|I] m j J; [injection E as <- <-; eapply Leave; eauto|eapply R3; eauto].
Qed.

Definition delivered b s : Prop := b = 0 \/ In (b, Some NewCtx) (s_results s).

Lemma reach_adapters d s : reachable d s ->
  NoDup (map fst (s_adapters s)) /\
  (forall a p, In (a, p) (s_adapters s) ->
     (a = 0 /\ p = None) \/ (exists q, p = Some q /\ In (a, Some NewCtx) (s_results s) /\ In (Func a q OBegin, NewCtx) (s_done s))).
Proof.
  induction 1 as [|s s' Re IH H].
  { split; [repeat constructor; auto|]. intros a p [E|[]]. injection E as <- <-. auto. }
  destruct IH as (ND & Fr). destruct (reach_results d s Re) as (_ & NW & _).
  destruct (reach_ids d s Re) as (_ & _ & _ & _ & Lw).
  assert (Rest : forall a p, In (a, p) (s_adapters s) ->
     (a = 0 /\ p = None) \/ (exists q, p = Some q /\ In (a, Some NewCtx) (s_results s) /\ In (Func a q OBegin, NewCtx) (s_done s))) by exact Fr.
  bystep H; cbn in *; split; try exact ND; try (apply NoDup_filter_map; exact ND); try exact Fr;
   try (intros a9 p9 I; try (apply in_without in I; destruct I as [I _]); destruct (Fr _ _ I) as [X|(q9 & -> & X & Y)];
        [left; exact X|right; exists q9; repeat split; try (right; exact X); try (apply in_or_app; left; exact Y); assumption]).
  - constructor; [|exact ND]. intros I. apply in_map_iff in I. destruct I as ([b p] & E & I). cbn in E. subst b.
    destruct (Fr _ _ I) as [[-> _]|(q & -> & X & _)].
    + apply Lw in H0. lia.
    + eapply NW; eauto.
  - intros a9 p9 [E|I].
    + injection E as <- <-. right. exists a. split; [reflexivity|]. split; [left; reflexivity|].
      eapply newctx_kind; eauto.
    + destruct (Fr _ _ I) as [X|(q9 & -> & X & Y)]; [left; exact X|right; exists q9; repeat split; auto].
Qed.

Lemma reach_ctx d s : reachable d s -> forall m a o, In (Func m a o) (s_sent s) -> delivered a s.
Proof.
  induction 1 as [|s s' Re IH H]; [contradiction|].
  destruct (reach_adapters d s Re) as (_ & Fr).
  assert (Dl : forall a, (exists p, In (a, p) (s_adapters s)) -> delivered a s).
  { intros a (p & I). destruct (Fr _ _ I) as [[-> _]|(q & _ & X & _)]; [left; reflexivity|right; exact X]. }
  unfold delivered in *. intros m a0 o0 I.
  bystep H; cbn in *; rewrite ?in_app_iff in I; cbn in I;
    try (destruct I as [I|[E|[]]]; [|try discriminate; injection E as <- <- <-; apply Dl; destruct H1; assumption]);
    try (destruct (IH _ _ _ I) as [X|X]; auto; fail).
Qed.

Lemma reach_free d s : reachable d s -> forall n a, In (Func n a OFree) (s_sent s) ->
  In (n, a, WDrop) (s_wait s) \/ (forall p, ~ In (a, p) (s_adapters s)).
Proof.
  induction 1 as [|s s' Re IH H]; [contradiction|].
  pose proof (wait_unique d s) as Un.
  intros m b I.
  bystep H; cbn in *; rewrite ?in_app_iff in I; cbn in I;
    try (destruct I as [I|[E|[]]]; [|try discriminate; injection E; intros; subst; auto]);
    try (destruct (IH _ _ I) as [X|X]; auto; fail).
  all: destruct (IH _ _ I) as [X|X];
    [|try (right; intros p9 Y; try (apply in_without in Y; destruct Y as [Y _]); eapply X; exact Y)].
  all: try (destruct (Nat.eq_dec m n) as [->|Ne];
    [destruct (Un _ _ _ _ _ Re X H0) as [-> Ek]; try congruence; try (destruct H1; congruence);
      try (right; intros p9 Y; apply in_without in Y; destruct Y as [_ Y]; apply Y; reflexivity)
    |left; apply in_no_wait; auto]).
  all: try (destruct H1 as (P1 & P2 & P3); exfalso; eapply P3; exact X).
  - right. intros p [E|Y]; [|eapply X; exact Y]. injection E as <- <-.
    destruct (reach_ctx d s Re _ _ _ I) as [->|Z].
    + destruct (reach_ids d s Re) as (_ & _ & _ & _ & Lw). apply Lw in H0. lia.
    + destruct (reach_results d s Re) as (_ & NW & _). eapply NW; eauto.
  - left. exact X.
Qed.

Lemma reach_shut d s : reachable d s ->
  (In Shutdown (s_sent s) -> s_adapters s = []) /\
  (s_adapters s = [] -> In Shutdown (s_sent s) \/ s_worker s = Died) /\
  (s_worker s = Stopped -> In Shutdown (s_sent s)).
Proof.
  induction 1 as [|s s' Re IH H]; [cbn; repeat split; try contradiction; discriminate|].
  destruct IH as (S1 & S2 & S3). destruct (reach_excl d s Re) as (Wa & _).
  assert (Ad : forall a p, In (a, p) (s_adapters s) -> s_adapters s <> []) by (intros a p I E; rewrite E in I; exact I).
  assert (Ns : forall a p, In (a, p) (s_adapters s) -> ~ In Shutdown (s_sent s)) by (intros a p I X; eapply Ad; eauto).
  assert (Wad : forall n a k, In (n, a, k) (s_wait s) -> exists p, In (a, p) (s_adapters s)) by eauto.
  pose proof (reach_fifo d s Re) as F. unfold fifo, alive in *.
  bystep H; cbn in *; rewrite ?in_app_iff; cbn; unfold alive in *; repeat split; auto; try congruence;
    try (intros [X|[X|[]]]; try discriminate; auto);
    try (intros X; left; auto; fail).
  - intros X. apply S2 in X. tauto.
  - intros X. apply S2 in X. tauto.
  - intros X. apply S2 in X. destruct X; [auto|congruence].
  - intros X. apply S2 in X. destruct X; [auto|congruence].
  - intros _. rewrite H0, H1 in F. rewrite F. apply in_or_app. right. left. reflexivity.
  - intros X. apply S2 in X. destruct X; [auto|congruence].
  - intros X. destruct (Wa _ _ _ H0) as (p & I). exfalso. eapply Ns; eauto.
  - intros X. apply S2 in X. tauto.
  - intros X. rewrite (S1 X). reflexivity.
  - intros _. destruct (s_worker s); tauto.
  - intros X. rewrite (S1 X). reflexivity.
  - intros X. destruct H as [H|H]; [contradiction|]. cbn in H. destruct (s_worker s); tauto.
  - intros X. rewrite (S1 X). reflexivity.
Qed.

Lemma reach_kept d s : reachable d s -> forall b, delivered b s ->
  (exists p, In (b, p) (s_adapters s)) \/ (exists n, In (Func n b OFree) (s_sent s)) \/ s_worker s = Died.
Proof.
  induction 1 as [|s s' Re IH H]; [intros b [->|[]]; left; exists None; left; reflexivity|].
  destruct (reach_shut d s Re) as (S1 & S2 & S3).
  intros b Db. unfold delivered in *.
  assert (Old : b = 0 \/ In (b, Some NewCtx) (s_results s) ->
     (exists p, In (b, p) (s_adapters s)) \/ (exists n, In (Func n b OFree) (s_sent s)) \/ s_worker s = Died) by apply IH.
  assert (Dr : forall n a, In (n, a, WDrop) (s_wait s) -> exists m, In (Func m a OFree) (s_sent s)).
  { intros n a I. destruct (reach_wait_cmd d s Re n a WDrop I) as (o & J & K). destruct o; try contradiction. eauto. }
  assert (Rm : forall a, (exists p, In (b, p) (s_adapters s)) ->
     (exists p, In (b, p) (without a (s_adapters s))) \/ b = a).
  { intros a (p & I). destruct (Nat.eq_dec b a); [auto|]. left. exists p. apply in_without. auto. }
  bystep H; cbn in *;
   try (destruct Db as [Db|[E|Db]];
         [apply or_introl with (B := In (b, Some NewCtx) (s_results s)) in Db | try discriminate
         |apply or_intror with (A := b = 0) in Db]);
   try (apply Old in Db; destruct Db as [(p9 & X9)|[(m9 & X9)|X9]];
     [try (left; exists p9; auto; fail)
     |right; left; exists m9; rewrite ?in_app_iff; auto; fail
     |right; right; congruence || auto]).
  - injection E as <-. left. exists (Some a). left. reflexivity.
  - destruct (Rm a (ex_intro _ p9 X9)) as [Y| ->]; [left; exact Y|].
    unfold alive in H0. destruct (s_worker s) eqn:W; try tauto.
    rewrite (S1 (S3 eq_refl)) in X9. contradiction.
  - contradiction.
  - destruct (Rm a (ex_intro _ p9 X9)) as [Y| ->]; [left; exact Y|]. right. left. eauto.
  - destruct (Rm a (ex_intro _ p9 X9)) as [Y| ->]; [left; exact Y|]. right. left.
    match goal with I : In (_, _, WDrop) (s_wait s) |- _ => destruct (Dr _ _ I) as (m & J) end.
    exists m. apply in_or_app. auto.
  - destruct (Rm a (ex_intro _ p9 X9)) as [Y| ->]; [left; exact Y|]. right. left. eauto.
  - destruct (Rm a (ex_intro _ p9 X9)) as [Y| ->]; [left; exact Y|]. right. left.
    match goal with I : In (_, _, WDrop) (s_wait s) |- _ => destruct (Dr _ _ I) as (m & J) end.
    exists m. apply in_or_app. auto.
Qed.

(** * The order of the commands *)

Definition ok_next (s : state D A R) (pre : list (cmd A)) (c : cmd A) : Prop :=
  ~ In Shutdown pre /\
  match c with
  | Func n a o =>
      (forall m, ~ In (Func m a OFree) pre) /\
      (a = 0 \/ exists q, In (Func a q OBegin) pre) /\
      (o = OFree -> forall b, In (b, Some NewCtx) (s_results s) -> In (Func b a OBegin) (s_sent s) ->
         exists m, In (Func m b OFree) pre)
  | Shutdown => forall b, delivered b s -> exists m, In (Func m b OFree) pre
  end.
Definition ordered s : Prop := forall pre c post, s_sent s = pre ++ c :: post -> ok_next s pre c.

Lemma snoc_cases {B} (l : list B) x pre c post : l ++ [x] = pre ++ c :: post ->
  (pre = l /\ c = x /\ post = []) \/ exists post', post = post' ++ [x] /\ l = pre ++ c :: post'.
Proof.
  intros E. assert (Z : post = [] \/ post <> []) by (destruct post; [auto|right; discriminate]). destruct Z as [->|N].
  - left. apply app_inj_tail in E. destruct E as [-> ->]. auto.
  - right. destruct (exists_last N) as (post' & y & ->). exists post'.
    rewrite app_comm_cons, app_assoc in E. apply app_inj_tail in E. destruct E as [-> ->]. auto.
Qed.
Lemma ord_same s s' : ordered s -> s_sent s' = s_sent s ->
  (forall b, In (b, Some NewCtx) (s_results s') -> In (b, Some NewCtx) (s_results s)) -> ordered s'.
Proof.
  intros O E Sub pre c post P. rewrite E in P. destruct (O pre c post P) as [N K]. split; [exact N|].
  destruct c as [n a o|].
  - destruct K as (K1 & K2 & K3). repeat split; auto. intros -> b I J. rewrite E in J. auto.
  - intros b [->|I]; apply K; [left; reflexivity|right; auto].
Qed.
Lemma ord_post s s' c : ordered s -> s_sent s' = s_sent s ++ [c] ->
  (forall b, In (b, Some NewCtx) (s_results s') -> In (b, Some NewCtx) (s_results s)) ->
  (forall n a o, c = Func n a o -> forall r, ~ In (n, r) (s_results s)) ->
  ok_next s (s_sent s) c -> ordered s'.
Proof.
  intros O E Sub Nw Kc pre c' post P. rewrite E in P. apply snoc_cases in P.
  assert (Beg : forall b a, In (b, Some NewCtx) (s_results s') -> In (Func b a OBegin) (s_sent s') -> In (Func b a OBegin) (s_sent s)).
  { intros b a I J. rewrite E, in_app_iff in J. destruct J as [J|[J|[]]]; [exact J|]. exfalso. eapply Nw; eauto. }
  assert (G : forall pre c, ok_next s pre c -> ok_next s' pre c).
  { intros p1 c1 [N K]. split; [exact N|]. destruct c1 as [n a o|].
    - destruct K as (K1 & K2 & K3). repeat split; auto.
    - intros b [->|I]; apply K; [left; reflexivity|right; auto]. }
  destruct P as [(-> & -> & ->)|(post' & -> & P)]; [auto|]. apply G. eapply O; eauto.
Qed.

Lemma reach_ordered d s : reachable d s -> ordered s.
Proof.
  induction 1 as [|s s' Re IH H]; [intros [|] ? ? E; discriminate|].
  destruct (reach_shut d s Re) as (S1 & S2 & S3). destruct (reach_excl d s Re) as (Wa & Ex & _).
  destruct (reach_ids d s Re) as (_ & NDi & _ & Lr & Lw). destruct (reach_adapters d s Re) as (_ & Ad).
  destruct (reach_results d s Re) as (_ & NW & Rd).
  pose proof (reach_kept d s Re) as Kept. pose proof (reach_free d s Re) as Fre.
  assert (NoS : forall a p, In (a, p) (s_adapters s) -> ~ In Shutdown (s_sent s)).
  { intros a p I X. rewrite (S1 X) in I. exact I. }
  assert (Nx : forall c : cmd A, (forall n a o, c = Func n a o -> n = s_next s) ->
     forall n a o, c = Func n a o -> forall r, ~ In (n, r) (s_results s)).
  { intros c Hc n a o E r I. rewrite (Hc _ _ _ E) in I. apply Lr in I. lia. }
  assert (NF : forall a, (exists p, In (a, p) (s_adapters s)) -> (forall n, ~ In (n, a, WDrop) (s_wait s)) ->
     forall m, ~ In (Func m a OFree) (s_sent s)).
  { intros a (p & I) Nd m J. apply Fre in J. destruct J as [J|J]; [eapply Nd; eauto|eapply J; eauto]. }
  assert (Cr : forall a, (exists p, In (a, p) (s_adapters s)) -> a = 0 \/ exists q, In (Func a q OBegin) (s_sent s)).
  { intros a (p & I). destruct (Ad _ _ I) as [[-> _]|(q & _ & _ & J)]; [auto|]. right. exists q. eapply done_sent; eauto. }
  assert (Dr : forall n a, In (n, a, WDrop) (s_wait s) -> exists m, In (Func m a OFree) (s_sent s)).
  { intros n a I. destruct (reach_wait_cmd d s Re n a WDrop I) as (o & J & K). destruct o; try contradiction. eauto. }
  assert (Last : forall a, without a (s_adapters s) = [] -> alive s -> (exists n, In (n, a, WDrop) (s_wait s)) ->
     ok_next s (s_sent s) Shutdown).
  { intros a E Al (n & W). split.
    - destruct (Wa _ _ _ W) as (p & I). eapply NoS; eauto.
    - intros b Db. destruct (Kept b Db) as [(p & I)|[X|X]].
      + assert (b = a) as ->; [|eauto]. destruct (Nat.eq_dec b a) as [|Ne]; [assumption|].
        assert (Y : In (b, p) (without a (s_adapters s))) by (apply in_without; auto). rewrite E in Y. contradiction.
      + exact X.
      + unfold alive in Al. rewrite X in Al. contradiction. }
  assert (Post : forall a o, (exists p, In (a, p) (s_adapters s)) -> (forall n, ~ In (n, a, WDrop) (s_wait s)) ->
     (o = OFree -> alive s /\ ~ child_of a s) -> ok_next s (s_sent s) (Func (s_next s) a o)).
  { intros a o Ha Nd Fr. destruct Ha as (p & Ia). split; [eapply NoS; eauto|]. repeat split.
    - apply NF; eauto.
    - apply Cr; eauto.
    - intros Eo b I J. destruct (Fr Eo) as [Al Nc].
      destruct (Kept b (or_intror I)) as [(q & X)|[X|X]].
      + exfalso. apply Nc. exists b. destruct (Ad _ _ X) as [[-> _]|(q' & -> & _ & Dn)].
        * apply Lr in I. lia.
        * apply (done_sent d s _ _ Re) in Dn. destruct (ids_unique _ _ _ _ _ _ NDi J Dn) as [-> _]. exact X.
      + exact X.
      + unfold alive in Al. rewrite X in Al. contradiction. }
  inversion H; subst; clear H.
  - destruct H1 as (P1 & P2 & P3).
    eapply ord_post; [exact IH|reflexivity|auto| |apply Post; auto].
    + apply Nx. intros; congruence.
    + intros n I. apply P3 in I. destruct I; discriminate.
  - eapply ord_same; [exact IH|reflexivity|]. cbn. intros b [E|I]; [discriminate|exact I].
  - destruct H1 as (P1 & P2 & P3).
    eapply ord_post; [exact IH|reflexivity|auto| |apply Post; auto].
    + apply Nx. intros; congruence.
  - eapply ord_same; [exact IH|reflexivity|]. cbn. intros b [E|I]; [discriminate|exact I].
  - eapply ord_same; [exact IH|reflexivity|auto].
  - eapply ord_same; [exact IH|reflexivity|auto].
  - eapply ord_same; [exact IH|reflexivity|auto].
  - eapply ord_same; [exact IH|reflexivity|auto].
  - destruct rep; try (eapply ord_same; [exact IH|reflexivity|cbn; intros b [E|I]; [discriminate|exact I]]).
    destruct (newctx_kind d s n a k Re H0 H2) as [-> Dn].
    intros pre c post P. cbn in P. destruct (IH pre c post P) as [N K]. split; [exact N|].
    destruct (Wa _ _ _ H0) as (p & Ia).
    destruct c as [m b o|].
    + destruct K as (K1 & K2 & K3). repeat split; auto. intros -> c Ic Jc. cbn in Ic, Jc.
      destruct Ic as [E|Ic]; [|eauto]. injection E as <-. exfalso.
      destruct (ids_unique _ _ _ _ _ _ NDi Jc (done_sent d s _ _ Re Dn)) as [-> _].
      assert (J : In (Func m a OFree) (s_sent s)) by (rewrite P; apply in_or_app; right; left; reflexivity).
      destruct (Fre _ _ J) as [X|X]; [|eapply X; eauto].
      assert (n = m) as -> by (eapply Ex; eauto).
      destruct (wait_unique d s _ _ _ _ _ Re H0 X) as [_ X']. discriminate.
    + exfalso. eapply NoS; [exact Ia|]. rewrite P. apply in_or_app. right. left. reflexivity.
  - eapply ord_same; [exact IH|reflexivity|]. cbn. intros b [E|I]; [discriminate|exact I].
  - eapply ord_same; [exact IH|reflexivity|auto].
  - destruct H1 as (P1 & P2 & P3).
    eapply ord_post; [exact IH|reflexivity|auto| |apply Post; auto].
    + apply Nx. intros; congruence.
  - drops; [|contradiction]. eapply ord_same; [exact IH|reflexivity|auto].
  - drops; [eapply ord_same; [exact IH|reflexivity|auto]|].
    eapply ord_post; [exact IH|reflexivity|auto|discriminate|]. eapply Last; eauto.
  - drops; [eapply ord_same; [exact IH|reflexivity|auto]|].
    unfold alive in *. cbn in *. match goal with W : s_worker s = Died |- _ => rewrite W in * end. contradiction.
Qed.

(** * Waiting clients *)
Lemma reach_pending d s : reachable d s -> forall n a o, In (Func n a o) (s_sent s) ->
  (exists rep, In (Func n a o, rep) (s_done s)) \/ waits n s = true \/ In n (s_gone s) \/ s_worker s = Died.
Proof.
  induction 1 as [|s s' Re IH H]; [contradiction|].
  assert (Lv : forall n m, waits m s = true -> m = n \/ exists a k, In (m, a, k) (no_wait n (s_wait s))).
  { intros n m W. apply waits_iff in W. destruct W as (a & k & W). destruct (Nat.eq_dec m n); [auto|].
    right. exists a, k. apply in_no_wait. auto. }
  assert (Rp : forall n rep, In (n, rep) (s_replies s) -> forall a o, In (Func n a o) (s_sent s) -> exists rep, In (Func n a o, rep) (s_done s)).
  { intros n rep I a o J. exists rep. eapply sent_done; eauto. eapply reach_reply; eauto. }
  intros m b q I. rewrite waits_iff. specialize (IH m b q). rewrite waits_iff in IH.
  assert (Sub : In (Func m b q) (s_sent s) -> forall l g,
     (forall a k, In (m, a, k) (s_wait s) -> In (m, a, k) l) -> (forall x, In x (s_gone s) -> In x g) ->
     (exists rep, In (Func m b q, rep) (s_done s)) \/ (exists a k, In (m, a, k) l) \/ In m g \/ s_worker s = Died).
  { intros J l g L1 L2. destruct (IH J) as [X|[(a & k & X)|[X|X]]]; eauto 6. }
  assert (Rem : In (Func m b q) (s_sent s) -> forall n g, (m = n -> (exists rep, In (n, rep) (s_replies s)) \/ In n g) ->
     (forall x, In x (s_gone s) -> In x g) ->
     (exists rep, In (Func m b q, rep) (s_done s)) \/ (exists a k, In (m, a, k) (no_wait n (s_wait s))) \/ In m g \/ s_worker s = Died).
  { intros J n g Hn Hg. destruct (Nat.eq_dec m n) as [E|E].
    - destruct (Hn E) as [(rep & X)|X]; [left; subst; eauto|right; right; left; subst; auto].
    - apply Sub; auto. intros a k X. apply in_no_wait. auto. }
  bystep H; cbn in *; rewrite ?in_app_iff in I; cbn in I;
    try (destruct I as [I|[E|[]]];
         [|try discriminate; injection E as <- <- <-; right; left; eexists _, _; left; reflexivity]);
    try (apply Sub; [exact I|intros; try right; assumption|auto]; fail);
    try (apply Rem; [exact I|intros ->; eauto|auto]; fail);
    try (right; right; right; assumption || reflexivity).
  - destruct (IH I) as [X|[(a9 & k9 & X)|[X|X]]]; eauto 8.
  - destruct (IH I) as [X|[(a9 & k9 & X)|[X|X]]]; eauto 8.
  - destruct (IH I) as [X|[X|[X|X]]]; auto. congruence.
  - destruct (IH I) as [(r & X)|[X|[X|X]]]; auto; [|congruence]. left. exists r. apply in_or_app. auto.
  - destruct (IH I) as [(r & X)|[X|[X|X]]]; auto; [|congruence]. left. exists r. apply in_or_app. auto.
  - apply (Rem I n (n :: s_gone s)); [intros ->; right; left; reflexivity|intros; right; assumption].
  - destruct (IH I) as [X|[(a9 & k9 & X)|[X|X]]]; eauto 8.
Qed.

(** * Progress *)
Notation worker_step := (worker_step run begin free).
Notation worker_steps := (worker_steps run begin free).
Lemma worker_is_step s s' : worker_step s s' -> step s s'.
Proof. destruct 1; [eapply st_take|eapply st_stop|eapply st_done|eapply st_die]; eassumption. Qed.
Lemma worker_reach d s s' : reachable d s -> worker_steps s s' -> reachable d s'.
Proof. intros Re H. induction H; auto. apply IHworker_steps. eapply re_step; [exact Re|]. apply worker_is_step. assumption. Qed.
Lemma worker_wait s s' : worker_steps s s' -> s_wait s' = s_wait s.
Proof. induction 1 as [|s s1 s2 H]; [reflexivity|]. rewrite IHworker_steps. destruct H; reflexivity. Qed.

(** From a state in which the worker is idle it can run until the queue is empty. *)
Lemma drain : forall k s, length (s_queue s) <= k -> s_worker s = Idle ->
  exists s', worker_steps s s' /\ ((s_worker s' = Idle /\ s_queue s' = []) \/ s_worker s' = Stopped \/ s_worker s' = Died).
Proof.
  induction k as [|k IH]; intros s L W.
  - exists s. split; [constructor|]. left. split; [exact W|]. destruct (s_queue s); [reflexivity|cbn in L; lia].
  - destruct (s_queue s) as [|[n a o|] q] eqn:Q.
    + exists s. split; [constructor|]. auto.
    + pose proof (ws_take run begin free s n a o q W Q) as S1.
      set (s1 := with_worker (Busy (Func n a o)) q s) in *.
      destruct (exec (Func n a o) (s_db s1)) as [[rep d']|] eqn:Ex.
      * pose proof (ws_done run begin free s1 (Func n a o) rep d' eq_refl Ex) as S2.
        set (s2 := finished (Func n a o) rep d' Idle (s_queue s1) s1) in *.
        destruct (IH s2) as (s' & St & R0); [cbn in *; lia|reflexivity|].
        exists s'. split; [|exact R0]. eapply wss_next; [exact S1|]. eapply wss_next; [exact S2|exact St].
      * pose proof (ws_die run begin free s1 (Func n a o) eq_refl Ex) as S2.
        eexists. split; [eapply wss_next; [exact S1|]; eapply wss_next; [exact S2|constructor]|]. auto.
    + pose proof (ws_stop run begin free s q W Q) as S1.
      eexists. split; [eapply wss_next; [exact S1|constructor]|]. auto.
Qed.
Lemma drain_any s : exists s', worker_steps s s' /\ ((s_worker s' = Idle /\ s_queue s' = []) \/ s_worker s' = Stopped \/ s_worker s' = Died).
Proof.
  destruct (s_worker s) as [|c| |] eqn:W.
  - eapply drain; eauto.
  - destruct (exec c (s_db s)) as [[rep d']|] eqn:Ex.
    + pose proof (ws_done run begin free s c rep d' W Ex) as S1.
      destruct (drain _ (finished c rep d' Idle (s_queue s) s) (le_n _) eq_refl) as (s' & St & R0).
      exists s'. split; [eapply wss_next; eassumption|exact R0].
    + pose proof (ws_die run begin free s c W Ex) as S1. eexists. split; [eapply wss_next; [exact S1|constructor]|]. auto.
  - exists s. split; [constructor|auto].
  - exists s. split; [constructor|auto].
Qed.
Lemma stopped_no_wait d s : reachable d s -> s_worker s = Stopped -> s_wait s = [] /\ s_adapters s = [].
Proof.
  intros Re W. destruct (reach_shut d s Re) as (S1 & _ & S3). pose proof (S1 (S3 W)) as E. split; [|exact E].
  destruct (s_wait s) as [|[[n a] k] l] eqn:Ew; [reflexivity|].
  destruct (reach_excl d s Re) as (Wa & _). destruct (Wa n a k) as (p & I); [rewrite Ew; left; reflexivity|].
  rewrite E in I. contradiction.
Qed.
Lemma progress d s n a k : reachable d s -> In (n, a, k) (s_wait s) ->
  exists s', worker_steps s s' /\ In (n, a, k) (s_wait s') /\ answered n s'.
Proof.
  intros Re I. destruct (drain_any s) as (s' & St & C). exists s'. split; [exact St|].
  pose proof (worker_wait _ _ St) as Ew. pose proof (worker_reach d s s' Re St) as Re'.
  rewrite Ew. split; [exact I|]. unfold answered.
  destruct C as [[W Q]|[W|W]]; [| |auto].
  - left. rewrite <- Ew in I. destruct (reach_wait_cmd d s' Re' n a k I) as (o & J & _).
    pose proof (reach_fifo d s' Re') as F. unfold fifo in F. rewrite W, Q, app_nil_r in F. rewrite F in J.
    apply in_map_iff in J. destruct J as ([c rep] & E & J). cbn in E. subst c.
    exists rep. eapply reach_replied; eauto.
  - destruct (stopped_no_wait d s' Re' W) as [E _]. rewrite Ew in E. rewrite E in I. contradiction.
Qed.
End P.
