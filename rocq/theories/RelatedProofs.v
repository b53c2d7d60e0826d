(** Replacing and deleting relations on SQLite does to the rows what Many.v says. *)
From Coq Require Import Permutation.
From Verif Require Import Base SqlVal Adb AdbSpec Sql SqlStmt Query QuerySpec Stmt StmtSpec LiteralSpec Ddl DdlSpec
  Backend BackendSpec Turso SqliteSem MigrateSpec SqliteData SqliteKey DataCalls KeyCall StoredSpec StoredRel MigrateProofs StoredProofs StoredMain StoredLoad
  Conn ConnProofs Many ManyProofs Codegen CodegenSpec CodegenProofs Props_Models Obj ObjSpec ObjProofs Props_Key Saved SavedSpec SavedProofs Related.

Lemma many_delete_on_conn {T} d kw b E gen (m : many T) w : many_delete_on (conn_methods d kw b E gen) m w = many_delete d kw b E gen m w.
Proof. reflexivity. Qed.
Lemma many_set_on_conn {T} (R : related T) d kw b E gen (m : many T) l w : many_set_on (conn_methods d kw b E gen) R m l w = many_set R d kw b E gen m l w.
Proof. reflexivity. Qed.

(** What is added are the keys. *)
Lemma add_all_new {T} (R : related T) (P : SqlVal -> Prop) l : forall m m', Forall (fun x => forall k, rel_key R x = Ok k -> P k) l -> Forall P (m_new m) ->
  add_all R m l = (Ok tt, m') -> Forall P (m_new m') /\ m_owner m' = m_owner m /\ m_table m' = m_table m /\ m_removed m' = m_removed m.
Proof.
  induction l as [|x l IH]; intros m m' F1 F2 H; cbn [add_all] in H; [injection H as <-; auto|].
  inversion F1 as [|? ? Fx Fl]; subst. unfold many_add in H. destruct (rel_valid R x); [|discriminate H]. destruct (rel_key R x) as [k|e|] eqn:Ek; try discriminate H.
  apply IH in H; [|exact Fl|cbn; apply Forall_app; split; [exact F2|]; constructor; [auto|constructor]]. cbn in *. tauto.
Qed.

Lemma add_all_valid {T} (R : related T) l : forall m m', add_all R m l = (Ok tt, m') -> Forall (fun x => rel_valid R x = true) l.
Proof.
  induction l as [|x l IH]; intros m m' H; [constructor|]. cbn [add_all] in H. unfold many_add in H. destruct (rel_valid R x) eqn:Ev; [|discriminate H].
  destruct (rel_key R x); try discriminate H. constructor; eauto.
Qed.
Lemma set_valid {W T} (C : methods W) (R : related T) m l w m' w' : many_set_on C R m l w = (Ok tt, m', w') -> Forall (fun x => rel_valid R x = true) l.
Proof.
  unfold many_set_on. destruct (many_delete_on C m w) as [[[u|e|] m1] w1]; try discriminate. destruct (add_all R m1 l) as [[[]|e|] m2] eqn:Ea; try discriminate.
  intros _. exact (add_all_valid R l _ _ Ea).
Qed.

Section Sim.
Context {U : Type}.
Variable json_text : string -> option string.
Variable resolve : bool -> list string -> string -> option string.
Variable sem : ty -> codec U.
Variable s : sdef.
Variable g : dbobject.
Variable kw : string -> bool.
Variable dl : dialect.
Variable conv : bool -> list string -> lvalue -> option lvalue.
Variable veq : lvalue -> lvalue -> bool.
Variable read : bool -> string -> f64.
Variable strict : bool.
Variable E : engine.
Variable fresh : etab -> Z.
Variable d : ADB.
Variable t : ATable.
Hypothesis DP : deployed json_text resolve sem s g kw dl conv veq read strict E d t.
Notation keeps := (keeps json_text E conv strict d).
Notation given_fits := (given_fits json_text).
Notation M := (sqlite_methods json_text kw dl conv veq read E fresh).
Notation C gen := (conn_methods dl kw Sqlite E gen).
Notation sim := (sim json_text conv strict E d).
Notation sim3 := (sim3 json_text conv strict E d).
Let ST := dp_engine _ _ _ _ _ _ _ _ _ _ _ _ _ _ DP.
Let US := dp_schema _ _ _ _ _ _ _ _ _ _ _ _ _ _ DP.
Let NO := dp_names _ _ _ _ _ _ _ _ _ _ _ _ _ _ DP.
Let KW := sr_quotes _ _ _ _ _ _ _ ST.
Let EO := sr_engine _ _ _ _ _ _ _ ST.
Let CS := sr_compares _ _ _ _ _ _ _ ST.
Let SO := sr_storage _ _ _ _ _ _ _ ST.
Let WF := us_wf _ US.
Let SF := us_fine _ US.
Let RK := us_keys _ US.
Variables (n : string) (rt : ATable).
Hypothesis HR : In (n, rt) (a_tables d).
Hypothesis RF : relation_for json_text g t rt.
Hypothesis Nn : n <> do_table g.
Context {T : Type}.
Variable R : related T.
Notation gen := (numbered g VNull).

Lemma owner_bare : bare_name dl "owner".
Proof. split; [reflexivity|exact (nm_owner _ _ _ NO)]. Qed.
Lemma delete_owner_sim D db owner : keeps D db -> ~ is_custom owner ->
  sim (on_delete_where M n (BEq "owner" (EVal owner)) db) D (on_delete_where (C gen) n (BEq "owner" (EVal owner))).
Proof.
  intros K NC. destruct RF as (R1 & _).
  assert (FO : filter_ok E D n (Some (BEq "owner" (EVal owner)))).
  { apply eq_ok. eapply Forall_impl; [|exact (kp_fit _ _ _ _ _ _ _ K n rt HR)]. cbn beta. intros r (_ & N2 & _). apply N2, R1. now left. }
  destruct (delete_call json_text E veq conv read strict fresh kw dl EO CS SO KW d WF SF RK D db n (BEq "owner" (EVal owner)) K) with (z := 0%Z) as (D' & A & O).
  { exists rt. split; [exact HR|]. split; [exact I|]. split; [split; [exact owner_bare|exact I]|]. split; [assumption|]. destruct owner; repeat constructor; exact NC. }
  cbn [asks] in A. subst D'. eapply sim_run; [exact K|exact O|intros k; reflexivity|]. intros fate.
  cbn [on_delete_where conn_methods]. apply (delete_where_effect dl kw Sqlite E gen KW EO n (BEq "owner" (EVal owner))); cbn [w_db]; try exact I;
    [exact (name_ok d WF SF n rt HR)|split; [exact owner_bare|exact I]|assumption].
Qed.
Lemma many_delete_sim D db (m : many T) owner : keeps D db -> m_owner m = Some owner -> m_table m = n -> ~ is_custom owner ->
  sim3 (many_delete_on M m db) D (many_delete_on (C gen) m).
Proof.
  intros K Ho Ht NC. unfold many_delete_on. rewrite Ho, Ht.
  destruct (delete_owner_sim D db owner K NC) as (D' & fs & r' & K' & A & H).
  destruct (on_delete_where M n (BEq "owner" (EVal owner)) db) as [r db1] eqn:Er. cbn [fst snd] in K', A.
  destruct r as [u|e|], r' as [u'|e'|]; try contradiction.
  - exists D', fs, (Ok tt). split; [exact K'|]. split; [reflexivity|]. intros rest. now rewrite H.
  - exists D', fs, (Err e'). split; [exact K'|]. split; [exact I|]. intros rest. now rewrite H.
  - exists D', fs, Panic. split; [exact K'|]. split; [exact I|]. intros rest. now rewrite H.
Qed.
Lemma many_set_sim D db (m : many T) owner l : keeps D db -> m_owner m = Some owner -> m_table m = n -> given_fits rt "owner" owner ->
  Forall (fun x => forall k, rel_key R x = Ok k -> given_fits rt "has" k) l ->
  sim3 (many_set_on M R m l db) D (many_set_on (C gen) R m l).
Proof.
  intros K Ho Ht GO F. unfold many_set_on. assert (NC : ~ is_custom owner) by (destruct GO as (c & _ & _ & ty & _ & _ & _ & N & _); exact N).
  assert (Hm1 : forall m1 db1, many_delete_on M m db = (Ok tt, m1, db1) -> m_owner m1 = Some owner /\ m_table m1 = n /\ m_new m1 = [] /\ m_removed m1 = []).
  { intros m1 db1. unfold many_delete_on. rewrite Ho. destruct (on_delete_where M (m_table m) (BEq "owner" (EVal owner)) db) as [[u|e|] db0]; intros [= <- <-]. cbn. auto. }
  destruct (many_delete_sim D db m owner K Ho Ht NC) as (D' & fs & r' & K' & A & H).
  destruct (many_delete_on M m db) as [[r m1] db1] eqn:Er. cbn [fst snd] in K', A, H.
  destruct r as [[]|e|], r' as [[]|e'|]; try contradiction.
  - destruct (Hm1 m1 db1 eq_refl) as (O1 & T1 & N1 & R1).
    destruct (add_all R m1 l) as [[[]|e|] m2] eqn:Ea.
    + destruct (add_all_new R (given_fits rt "has") l m1 m2 F) as (F2 & O2 & T2 & R2); [rewrite N1; constructor|exact Ea|]. rewrite O1 in O2. rewrite T1 in T2. rewrite R1 in R2.
      destruct (many_sim json_text resolve sem s g kw dl conv veq read strict E fresh d t DP n rt HR RF Nn VNull D' db1 m2 owner K' O2 T2 GO F2) as (D2 & fs2 & r2 & K2 & A2 & H2); [rewrite R2; constructor|].
      destruct (many_save_on M m2 db1) as [[r3 m3] db3]. cbn [fst snd] in K2, A2, H2.
      destruct r3 as [[]|e3|], r2 as [[]|e2|]; try contradiction.
      * exists D2, (fs ++ fs2), (Ok tt). split; [exact K2|]. split; [reflexivity|]. intros rest. rewrite <- app_assoc, H, Ea, H2. reflexivity.
      * exists D2, (fs ++ fs2), (Err e2). split; [exact K2|]. split; [exact I|]. intros rest. rewrite <- app_assoc, H, Ea, H2. reflexivity.
      * exists D2, (fs ++ fs2), Panic. split; [exact K2|]. split; [exact I|]. intros rest. rewrite <- app_assoc, H, Ea, H2. reflexivity.
    + exists D', fs, (Err e). split; [exact K'|]. split; [exact I|]. intros rest. now rewrite H, Ea.
    + exists D', fs, Panic. split; [exact K'|]. split; [exact I|]. intros rest. now rewrite H, Ea.
  - exists D', fs, (Err e'). split; [exact K'|]. split; [exact I|]. intros rest. now rewrite H.
  - exists D', fs, Panic. split; [exact K'|]. split; [exact I|]. intros rest. now rewrite H.
Qed.
End Sim.
