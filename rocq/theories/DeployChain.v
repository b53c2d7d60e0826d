(** The chain of migrations applied to, and undone on, a database. *)
From Verif Require Import Base SqlVal Sql Query QuerySpec Adb AdbSpec AdbProofs Literal LiteralSpec Ddl DdlProofs DdlSpec SqliteDdl SqliteDdlProofs DdlFine
  Backend BackendSpec SqliteSem MigrateSpec MigrateProofs MigrateInv MigrateMain MigrateReady
  Chain ChainSpec ChainProofs Store StoreSpec FsStore FsSpec Deploy DeploySpec DeploySame DeployMade DeployWalk DeployProofs.

Section Chain.
Variable conv : bool -> list string -> lvalue -> option lvalue.
Variable veq : lvalue -> lvalue -> bool.
Variable read : bool -> string -> f64.
Variable show : f64 -> string.
Variable strict : bool.
Hypothesis Hs : storage_ok conv strict read.
Hypothesis Hshow : display_ok read show.
Variable reads : string -> option (list ddl).
Context {M : Type} (c : Coll M) (bs : list Backend) (b : Backend).
Hypothesis Hread : forall d ops script, ops_fine d ops -> (strict = false -> Forall default_plain ops) -> b_sql b d ops = Ok script ->
  with_newline script = script /\ reads script = Some (ops_ast show strict d ops).
Notation exec := (engine_exec conv veq read strict reads).
Notation bk := (b_name b).
Notation scripted := (scripted c bs b).

Lemma database_same a d s : same_schema a d -> database_is conv strict a s -> database_is conv strict d s.
Proof. intros S []. constructor; auto. now apply (realises_same conv strict a). Qed.
Lemma kept_eq text o x : with_newline text = text -> kept_as text o -> o = Ok (Some x) -> x = text.
Proof. intros N [H|H] E; rewrite H in E; injection E as <-; [reflexivity|exact N]. Qed.
Lemma kept_get text o : with_newline text = text -> kept_as text o -> o = Ok (Some text).
Proof. intros N [H|H]; [exact H|]. now rewrite N in H. Qed.

Lemma up_step from d m to r s s' : scripted from d ((m, to) :: r) -> change_fine strict d to -> database_is conv strict d s ->
  applies c exec bk m s s' ->
  migrated conv strict d to (dbs_rest s) (dbs_rest s') /\ database_is conv strict to s' /\
  exists l, bookkeeping from (dbs_mig s) = Some l /\ dbs_mig s' = Some (l ++ [cl_name c m]).
Proof.
  intros SC CF D (sql & s1 & E1 & E2 & l & E3 & _ & ->). inversion SC as [|? ? ? ? ? bf up down S W Z (_ & ops & dops & Ed & _ & Eu & _) Ku Kd _]. subst.
  pose proof (change_fine_old strict bf d to S W CF) as CF'. pose proof (database_same _ _ s (same_schema_sym _ _ S) D) as D'.
  destruct (script_reads show strict reads (b_sql b) Hread bf to from ops up CF' Ed Eu) as (NL & _).
  rewrite (kept_eq _ _ _ NL Ku E1) in E2.
  destruct (exec_step conv veq read show strict Hs Hshow reads (b_sql b) Hread bf to from ops up s s1 CF' D' Ed Eu E2) as (MG & [] & BK).
  split; [now apply (migrated_old conv strict bf d)|]. split; [constructor; assumption|].
  exists l. split; [congruence|reflexivity].
Qed.
Lemma up_ready from d m to r s : scripted from d ((m, to) :: r) -> change_fine strict d to -> database_is conv strict d s ->
  ready conv veq strict d to (dbs_rest s) -> (exists l, bookkeeping from (dbs_mig s) = Some l /\ ~ In (cl_name c m) l) ->
  exists s', applies c exec bk m s s'.
Proof.
  intros SC CF D RD (l & BK & N). inversion SC as [|? ? ? ? ? bf up down S W Z (_ & ops & dops & Ed & _ & Eu & _) Ku Kd _]. subst.
  pose proof (change_fine_old strict bf d to S W CF) as CF'. pose proof (database_same _ _ s (same_schema_sym _ _ S) D) as D'.
  destruct (script_reads show strict reads (b_sql b) Hread bf to from ops up CF' Ed Eu) as (NL & _).
  destruct (exec_ready conv veq read show strict Hs Hshow reads (b_sql b) Hread bf to from ops up s CF' D' (ready_old conv veq strict bf d to _ S RD) Ed Eu) as (s1 & E).
  destruct (exec_step conv veq read show strict Hs Hshow reads (b_sql b) Hread bf to from ops up s s1 CF' D' Ed Eu E) as (_ & _ & BK1).
  eexists. exists up, s1. split; [exact (kept_get _ _ NL Ku)|]. split; [exact E|]. exists l. split; [congruence|]. split; [exact N|reflexivity].
Qed.
Lemma down_step from d m to r s s' : scripted from d ((m, to) :: r) -> change_fine strict to d -> database_is conv strict to s ->
  downgrades c exec bk m s s' ->
  migrated conv strict to d (dbs_rest s) (dbs_rest s') /\ database_is conv strict d s' /\
  exists l, dbs_mig s = Some l /\ dbs_mig s' = Some (remove string_dec (cl_name c m) l).
Proof.
  intros SC CF D (sql & s1 & E1 & E2 & l & E3 & ->). inversion SC as [|? ? ? ? ? bf up down S W Z (_ & ops & dops & _ & Ed & _ & Eu) Ku Kd _]. subst.
  pose proof (change_fine_new strict bf d to S W Z CF) as CF'.
  change dops with (first_ops (Some ""%string) dops) in Eu.
  destruct (script_reads show strict reads (b_sql b) Hread to bf _ dops down CF' Ed Eu) as (NL & _).
  rewrite (kept_eq _ _ _ NL Kd E1) in E2.
  destruct (exec_step conv veq read show strict Hs Hshow reads (b_sql b) Hread to bf _ dops down s s1 CF' D Ed Eu E2) as (MG & D1 & BK).
  split; [exact (migrated_new conv strict bf d to _ _ S (cf_new_fine _ _ _ CF') Z CF MG)|].
  split; [apply (database_same bf d) in D1; [|exact S]; destruct D1; constructor; assumption|].
  exists l. split; [|reflexivity]. rewrite E3 in BK. unfold bookkeeping in BK. destruct (dbs_mig s); congruence.
Qed.
Lemma down_ready from d m to r s : scripted from d ((m, to) :: r) -> change_fine strict to d -> database_is conv strict to s ->
  ready conv veq strict to d (dbs_rest s) -> dbs_mig s <> None -> exists s', downgrades c exec bk m s s'.
Proof.
  intros SC CF D RD N. inversion SC as [|? ? ? ? ? bf up down S W Z (_ & ops & dops & _ & Ed & _ & Eu) Ku Kd _]. subst.
  pose proof (change_fine_new strict bf d to S W Z CF) as CF'.
  change dops with (first_ops (Some ""%string) dops) in Eu.
  destruct (script_reads show strict reads (b_sql b) Hread to bf _ dops down CF' Ed Eu) as (NL & _).
  destruct (exec_ready conv veq read show strict Hs Hshow reads (b_sql b) Hread to bf _ dops down s CF' D
    (ready_new conv veq strict bf d to _ S (cf_new_fine _ _ _ CF') Z CF RD) Ed Eu) as (s1 & E).
  destruct (exec_step conv veq read show strict Hs Hshow reads (b_sql b) Hread to bf _ dops down s s1 CF' D Ed Eu E) as (_ & _ & BK1).
  destruct (dbs_mig s) as [l|]; [|congruence].
  eexists. exists down, s1. split; [exact (kept_get _ _ NL Kd)|]. split; [exact E|].
  exists l. split; [exact BK1|reflexivity].
Qed.


Definition migrate_carries := migrate_carries (database_is conv strict) (change_fine strict) (migrated conv strict) exec c bs b up_step.
Definition unmigrate_carries := unmigrate_carries (database_is conv strict) (change_fine strict) (migrated conv strict) exec c bs b down_step.
Definition commands_walk := commands_walk (database_is conv strict) (change_fine strict) (migrated conv strict) exec c bs b up_step down_step.
Definition follows_scripted := follows_scripted (database_is conv strict) (change_fine strict) (migrated conv strict) exec c bs b database_same up_step down_step.
Definition migrate_reaches := migrate_reaches (database_is conv strict) (change_fine strict) (migrated conv strict) (ready conv veq strict) exec c bs b up_step up_ready.
Definition unmigrate_reaches := unmigrate_reaches (database_is conv strict) (change_fine strict) (migrated conv strict) (ready conv veq strict) exec c bs b down_step down_ready.
End Chain.
