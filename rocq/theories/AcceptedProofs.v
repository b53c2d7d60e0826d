(** Proofs about the objects that can be stored (C64). *)
From Verif Require Import Base SqlVal Adb AdbSpec Sql SqlStmt Query QuerySpec Stmt StmtSpec LiteralSpec Ddl DdlSpec SqliteSem SqliteData
  Backend BackendSpec Turso MigrateSpec DataCalls StoredSpec StoredRel MigrateProofs StoredProofs StoredMain StoredLoad Conn ConnProofs Many ManyProofs Codegen CodegenSpec CodegenProofs
  Obj ObjSpec ObjProofs Props_Models Props_Stored KeyCall Props_Key Saved SavedSpec SavedProofs AcceptedSpec.

Section Append.
Variable E : engine.
Variable d : ADB.
Variable n : string.
Variable t : ATable.
Hypothesis WF : wf_schema d.
Hypothesis HT : In (n, t) (a_tables d).

(** One more row keeps the data legal exactly when it clashes with none and has its parents. *)
Lemma append_legal D r : legal E d D ->
  (legal E d (with_table D n (D n ++ [r])) <->
   (forall c q x y, In c (t_cols t) -> c_pk c = true \/ c_unique c = true -> field (c_name c) r = Some x -> In q (D n) -> field (c_name c) q = Some y -> ~ equal E y x)
   /\ (forall c f x, In c (t_cols t) -> MigrateSpec.refers c f -> field (c_name c) r = Some x ->
        x = VNull \/ (exists p y, In p (D (fk_table f)) /\ field (fk_ref f) p = Some y /\ equal E x y)
        \/ fk_table f = n /\ exists y, field (fk_ref f) r = Some y /\ equal E x y)).
Proof.
  intros [L1 L2]. assert (FC : forall c f, MigrateSpec.refers c f -> fk_col f = c_name c) by (intros c f (x & _ & ->); reflexivity). split.
  - intros [K1 K2]. split.
    + intros c q x y Hc Hk Fr Hq Fq. apply In_nth_error in Hq as (i & Hi). assert (Li : i < List.length (D n)) by (apply nth_error_Some; congruence).
      apply (K1 n t c i (List.length (D n)) q r y x HT Hc Hk Li); rewrite ?with_table_same; auto.
      * now rewrite nth_error_app1.
      * now rewrite nth_error_app2, Nat.sub_diag by lia.
    + intros c f x Hc Hf Fr. destruct (K2 n t c f r x HT Hc Hf) as [->|(p & y & Hp & Fp & Ep)].
      * rewrite with_table_same. apply in_app_iff. right. now left.
      * now rewrite (FC c f Hf).
      * now left.
      * right. destruct (string_dec (fk_table f) n) as [En|Nn].
        -- rewrite En, with_table_same in Hp. apply in_app_iff in Hp as [Hp|[<-|[]]]; [left; rewrite En; eauto|right; eauto].
        -- rewrite with_table_other in Hp by assumption. left. eauto.
  - intros [K1 K2]. constructor.
    + intros m u c i j q q' x y Hm Hc Hk Lij Hi Hj Fx Fy. destruct (string_dec m n) as [->|Nn].
      * rewrite (StoredProofs.same_table d n u t WF Hm HT) in *. rewrite with_table_same in Hi, Hj.
        assert (Lj : j < List.length (D n ++ [r])) by (apply nth_error_Some; congruence). rewrite app_length in Lj. cbn in Lj.
        rewrite nth_error_app1 in Hi by lia. destruct (Nat.eq_dec j (List.length (D n))) as [->|Nj].
        -- rewrite nth_error_app2, Nat.sub_diag in Hj by lia. cbn in Hj. injection Hj as <-. apply (K1 c q y x Hc Hk Fy); [|exact Fx]. now apply nth_error_In in Hi.
        -- rewrite nth_error_app1 in Hj by lia. now apply (L1 n t c i j q q' x y).
      * rewrite with_table_other in Hi, Hj by assumption. now apply (L1 m u c i j q q' x y).
    + intros m u c f q x Hm Hc Hf Hq Fx.
      assert (UP : forall p, In p (D (fk_table f)) -> In p (with_table D n (D n ++ [r]) (fk_table f))).
      { intros p Hp. destruct (string_dec (fk_table f) n) as [En|Nn]; [rewrite En in *; rewrite with_table_same; apply in_app_iff; now left|now rewrite with_table_other]. }
      assert (OLD : In q (D m) -> x = VNull \/ exists p y, In p (with_table D n (D n ++ [r]) (fk_table f)) /\ field (fk_ref f) p = Some y /\ equal E x y).
      { intros Ho. destruct (L2 m u c f q x Hm Hc Hf Ho Fx) as [->|(p & y & Hp & Fp & Ep)]; [now left|right; exists p, y; auto]. }
      destruct (string_dec m n) as [->|Nn]; [|rewrite with_table_other in Hq by assumption; auto].
      rewrite with_table_same in Hq. apply in_app_iff in Hq as [Hq|[<-|[]]]; [auto|].
      rewrite (StoredProofs.same_table d n u t WF Hm HT) in *. rewrite (FC c f Hf) in Fx.
      destruct (K2 c f x Hc Hf Fx) as [->|[(p & y & Hp & Fp & Ep)|(En & y & Fy & Ey)]]; [now left|right; exists p, y; auto|right].
      exists r, y. rewrite En, with_table_same. split; [apply in_app_iff; right; now left|auto].
Qed.
End Append.

Section New.
Context {U X : Type}.
Variable json_text : string -> option string.
Variable resolve : bool -> list string -> string -> option string.
Variable sem : ty -> codec U.
Variable valid : U -> bool.
Variable init : U -> SqlVal -> outcome unit * U.
Variable s : sdef.
Variable g : dbobject.
Variable kw : string -> bool.
Variable dl : dialect.
Variable conv : bool -> list string -> lvalue -> option lvalue.
Variable veq : lvalue -> lvalue -> bool.
Variable read : bool -> string -> f64.
Variable strict : bool.
Variable E : engine.
Variable fresh : etab -> Z.
Variable d : ADB.
Variable t : ATable.
Hypothesis DP : deployed json_text resolve sem s g kw dl conv veq read strict E d t.
Notation object := (@object U (many X)).
Notation keeps := (keeps json_text E conv strict d).
Notation M := (sqlite_methods json_text kw dl conv veq read E fresh).
Notation fname := (fun f : sfield => strip_raw (sf_ident f)).
Notation cols := (map fst (dr_columns (do_result g))).
Notation icols := (map fst (do_insert g)).
Let Hc := dp_compiles _ _ _ _ _ _ _ _ _ _ _ _ _ _ DP.
Let Hg := dp_code _ _ _ _ _ _ _ _ _ _ _ _ _ _ DP.
Let ST := dp_engine _ _ _ _ _ _ _ _ _ _ _ _ _ _ DP.
Let US := dp_schema _ _ _ _ _ _ _ _ _ _ _ _ _ _ DP.
Let NO := dp_names _ _ _ _ _ _ _ _ _ _ _ _ _ _ DP.
Let MI := dp_model _ _ _ _ _ _ _ _ _ _ _ _ _ _ DP.
Let KW := sr_quotes _ _ _ _ _ _ _ ST.
Let EO := sr_engine _ _ _ _ _ _ _ ST.
Let CS := sr_compares _ _ _ _ _ _ _ ST.
Let STO := sr_storage _ _ _ _ _ _ _ ST.
Let WF := us_wf _ US.
Let SF := us_fine _ US.
Let RK := us_keys _ US.
Let EXK := dp_exact _ _ _ _ _ _ _ _ _ _ _ _ _ _ DP.
Let HT := mi_table _ _ _ _ _ _ _ MI.

(** The row written has the object's values. *)
Lemma written_field (o : object) vs n x : non_auto_values sem g o true = Ok vs -> field n (combine icols vs) = Some x -> value_of resolve sem s o n x.
Proof.
  intros Ev F. pose proof (stored_values resolve sem s g Hc Hg o true vs (or_introl eq_refl) Ev) as [L Hv].
  assert (Hn : In n icols) by (apply StoredProofs.field_pair in F; now apply in_combine_l in F).
  rewrite (icols_eq resolve s g Hc Hg) in Hn. apply in_map_iff in Hn as (f & <- & Hf). destruct (Hv f Hf) as (v & Sv & Fv). rewrite Fv in F. injection F as <-.
  exists f. split; [|auto]. now apply (written_in resolve s g Hc Hg) in Hf.
Qed.
Lemma field_written (o : object) vs n x : non_auto_values sem g o true = Ok vs -> (do_auto g = true -> n <> do_pkcol g) -> value_of resolve sem s o n x ->
  field n (combine icols vs) = Some x.
Proof.
  intros Ev Np (f & Hf & <- & Sx). pose proof (stored_values resolve sem s g Hc Hg o true vs (or_introl eq_refl) Ev) as [L Hv].
  destruct (Hv f) as (v & Sv & Fv).
  - apply (written_in resolve s g Hc Hg). split; [exact Hf|]. intros Ha ->. apply (Np Ha). symmetry. apply (pkcol_eq resolve s g Hg).
  - now rewrite (stores_fun sem o f x v Sx Sv).
Qed.
Lemma values_there (o : object) : has_values resolve sem s g o -> exists vs, non_auto_values sem g o true = Ok vs.
Proof.
  intros HV. assert (A : exists vs, Forall2 (CodegenSpec.stores sem o) (written_fields resolve s) vs).
  { assert (I : forall f, In f (written_fields resolve s) -> exists v, CodegenSpec.stores sem o f v).
    { intros f Hf. apply (written_in resolve s g Hc Hg) in Hf as [Hf Nf]. destruct (HV f Hf) as [[-> Ha]|H]; [now destruct (Nf Ha)|exact H]. }
    revert I. generalize (written_fields resolve s). induction l as [|f l IH]; intros I; [exists []; constructor|].
    destruct (I f (or_introl eq_refl)) as (v & Hv). destruct IH as (vs & Hvs); [intros f' Hf'; apply I; now right|]. exists (v :: vs). now constructor. }
  destruct A as (vs & A). exists vs. now apply (C31_write resolve U (many X) sem s g o true vs Hc Hg (or_introl eq_refl)).
Qed.
Lemma values_needed (o : object) vs : non_auto_values sem g o true = Ok vs -> has_values resolve sem s g o.
Proof.
  intros Ev f Hf. pose proof (stored_values resolve sem s g Hc Hg o true vs (or_introl eq_refl) Ev) as [_ Hv].
  destruct (do_auto g) eqn:Ha.
  - destruct (all_cols resolve s g Hc Hg f Hf) as [->|W]; [now left|right]. destruct (Hv f W) as (v & Sv & _). eauto.
  - right. destruct (Hv f) as (v & Sv & _); [|eauto]. apply (written_in resolve s g Hc Hg). split; [exact Hf|congruence].
Qed.

(** Relations with nothing to be written. *)
Lemma manys_nothing {W} (Mt : methods W) (w : W) kv : forall fs (o : object), ~ In (sf_ident (do_pk g)) (map fst fs) -> field_sql sem o (do_pk g) = Ok kv ->
  (forall f n, In (f, n) fs -> exists m, obj_get o f = Some (FM m) /\ m_new m = [] /\ m_removed m = []) ->
  exists o', save_manys_on Mt sem g fs o w = (Ok tt, o', w) /\ forall n, ~ In n (map fst fs) -> obj_get o' n = obj_get o n.
Proof.
  induction fs as [|[f n] fs IH]; intros o Np Ek NP; cbn [save_manys_on]; [exists o; auto|].
  destruct (NP f n (or_introl eq_refl)) as (m & Hm & N1 & N2). rewrite Hm, Ek.
  set (m1 := ensure_init m n kv (cd_type _ (sem (sf_ty (do_pk g))))).
  assert (M1 : m_new m1 = [] /\ m_removed m1 = [] /\ exists w, m_owner m1 = Some w) by (unfold m1, ensure_init; destruct (m_owner m) eqn:Eo; cbn; eauto).
  destruct M1 as (M1 & M2 & ow & M3). unfold many_save_on. rewrite M3, M1, M2. cbn [rev insert_new_on].
  assert (Nf : f <> sf_ident (do_pk g)) by (intros ->; apply Np; now left).
  destruct (IH (obj_set o f (FM (set_pending m1 [] [])))) as (o' & Es & Eo).
  - intros H. apply Np. now right.
  - unfold field_sql in *. rewrite obj_get_set. now rewrite (proj2 (String.eqb_neq _ _) Nf).
  - intros f' n' H'. rewrite obj_get_set. destruct (String.eqb_spec f f') as [<-|Nf']; [|apply (NP f' n'); now right].
    rewrite Hm. eexists. split; [reflexivity|]. auto.
  - exists o'. split; [exact Es|]. intros k Hk. rewrite Eo by (intros H; apply Hk; now right). rewrite obj_get_set.
    rewrite (proj2 (String.eqb_neq f k)); [reflexivity|]. intros ->. apply Hk. now left.
Qed.
Lemma pending_on (o o1 : object) : nothing_pending resolve s o -> (forall n, n <> sf_ident (do_pk g) -> obj_get o1 n = obj_get o n) ->
  forall f n, In (f, n) (do_save_many g) -> exists m, obj_get o1 f = Some (FM m) /\ m_new m = [] /\ m_removed m = [].
Proof.
  intros NP S f n H. assert (Nf : f <> sf_ident (do_pk g)).
  { intros ->. apply (key_apart json_text resolve sem s g kw dl conv veq read strict E d t DP). now apply (in_map fst) in H. }
  rewrite (relations_eq resolve s g Hg) in H. apply in_map_iff in H as (f0 & [= <- <-] & H). rewrite S by assumption. now apply NP.
Qed.
Section Pairs.
Variables (n : string) (rt : ATable).
Hypothesis HR : In (n, rt) (a_tables d).
Hypothesis RF : relation_for json_text g t rt.
Hypothesis OP : forall c, In c (t_cols rt) -> c_pk c = false /\ c_unique c = false.
(** The value is there for whatever the column refers to. *)
Definition there_for (D : Sql.db) (n0 : string) (v : SqlVal) : Prop := forall c k, In c (t_cols rt) -> c_name c = n0 -> MigrateSpec.refers c k ->
  exists p y, In p (D (fk_table k)) /\ field (fk_ref k) p = Some y /\ equal E v y.
Lemma no_target m t0 c k : In (m, t0) (a_tables d) -> In c (t_cols t0) -> MigrateSpec.refers c k -> fk_table k <> n.
Proof.
  intros Hm Hin Hf Ef. destruct (RK m t0 c k Hm Hin Hf) as (t1 & k1 & H1 & H2 & _ & H3). rewrite Ef in H1.
  rewrite (StoredProofs.same_table d n t1 rt WF H1 HR) in H2. destruct (OP k1 H2) as (P1 & P2). destruct H3; congruence.
Qed.
Lemma there_on D D' n0 v : (forall m, m <> n -> D' m = D m) -> there_for D n0 v -> there_for D' n0 v.
Proof.
  intros S H c k Hin En Hf. destruct (H c k Hin En Hf) as (p & y & Hp & R). exists p, y. split; [|exact R]. rewrite S; [exact Hp|].
  exact (no_target n rt c k HR Hin Hf).
Qed.

Lemma pair_written D db owner v : keeps D db -> given_fits json_text rt "owner" owner -> given_fits json_text rt "has" v ->
  there_for D "owner" owner -> there_for D "has" v ->
  exists D' db', on_insert_only M n many_columns [owner; v] db = (Ok tt, db') /\ keeps D' db' /\ forall m, m <> n -> D' m = D m.
Proof.
  intros K G1 G2 T1 T2. destruct (kp_tables _ _ _ _ _ _ _ K n rt HR) as (b & Hb & _). destruct RF as (R1 & R2 & _).
  destruct (insert_call json_text E veq conv read strict fresh kw dl EO CS STO KW d WF SF RK D db n many_columns [owner; v] b K Hb) as (D' & (t0 & extra & Ht & G & ->) & O).
  - intros t0 c Ht Hin A. rewrite (StoredProofs.same_table d n t0 rt WF Ht HR) in Hin. rewrite (R2 c Hin) in A. discriminate A.
  - exists rt. split; [exact HR|]. split; [repeat constructor; cbn; intuition discriminate|]. split; [repeat constructor; assumption|].
    intros c Hin. left. assert (H : has_column rt (c_name c)) by now exists c. apply R1 in H as [->| ->]; cbn; auto.
  - cbn [on_insert_only sqlite_methods]. unfold sqlite_run. assert (EX : extra = []).
    { rewrite (StoredProofs.same_table d n t0 rt WF Ht HR) in G. destruct G as (_ & G & _).
      destruct extra as [|[m x] extra]; [reflexivity|]. exfalso. destruct (proj1 (G m) (or_introl eq_refl)) as [H1 H2]. apply R1 in H1. apply H2. cbn. intuition. }
    subst extra. destruct O as [(db' & -> & K' & _)|[_ NL]].
    { eexists. exists db'. split; [reflexivity|]. split; [exact K'|]. intros m Nm. now rewrite with_table_other. }
    exfalso. apply NL. apply (append_legal E d n rt WF HR D _ (kp_legal _ _ _ _ _ _ _ K)). split.
    + intros c q x y Hin [Hk|Hk]; destruct (OP c Hin) as (P1 & P2); congruence.
    + intros c f x Hin Hf Fx. right. left. assert (H : has_column rt (c_name c)) by now exists c. apply R1 in H as [Ec|Ec]; rewrite Ec in Fx; cbn in Fx; injection Fx as <-.
      * exact (T1 c f Hin Ec Hf).
      * exact (T2 c f Hin Ec Hf).
Qed.
Lemma pairs_written owner : given_fits json_text rt "owner" owner -> forall l D db, keeps D db -> Forall (given_fits json_text rt "has") l ->
  there_for D "owner" owner -> Forall (there_for D "has") l ->
  exists D' db', insert_new_on M n owner l db = (Ok tt, [], db') /\ keeps D' db' /\ forall m, m <> n -> D' m = D m.
Proof.
  intros GO. induction l as [|v l IH]; intros D db K F T1 T2; [exists D, db; auto|]. inversion F as [|? ? Fv Fl]; subst. inversion T2 as [|? ? Tv Tl]; subst.
  destruct (pair_written D db owner v K GO Fv T1 Tv) as (D1 & db1 & E1 & K1 & S1). cbn [insert_new_on]. rewrite E1.
  destruct (IH D1 db1 K1 Fl (there_on D D1 _ _ S1 T1)) as (D2 & db2 & E2 & K2 & S2).
  { eapply Forall_impl; [|exact Tl]. intros v0. now apply there_on. }
  exists D2, db2. split; [exact E2|]. split; [exact K2|]. intros m Nm. rewrite S2 by exact Nm. now apply S1.
Qed.
Lemma pairs_removed D db l : keeps D db -> l <> [] -> Forall (fun v => ~ is_custom v) l ->
  exists D' db', on_delete_where M n (BIn "has" l) db = (Ok tt, db') /\ keeps D' db' /\ forall m, m <> n -> D' m = D m.
Proof.
  intros K NE F. destruct RF as (R1 & _).
  assert (Hh : Forall (fun r : Sql.row => In "has"%string (map fst r)) (D n)).
  { eapply Forall_impl; [|exact (kp_fit _ _ _ _ _ _ _ K n rt HR)]. cbn beta. intros r (_ & N2 & _). apply N2, R1. now right. }
  assert (BV : Forall (fun v => ~ is_custom v) (bound_values (BIn "has" l))).
  { cbn [bound_values]. apply Forall_forall. intros v Hv. apply in_flat_map in Hv as (w & Hw & Hv). rewrite Forall_forall in F.
    assert (v = w) by (destruct w; cbn in Hv; intuition). subst. now apply F. }
  destruct (delete_call json_text E veq conv read strict fresh kw dl EO CS STO KW d WF SF RK D db n (BIn "has" l) K) with (z := 0%Z) as (D' & A & O).
  { exists rt. split; [exact HR|]. split; [exact Logic.I|]. split; [split; [reflexivity|intros; contradiction]|]. split; [now apply in_ok|assumption]. }
  cbn [asks] in A. subst D'. cbn [on_delete_where sqlite_methods]. unfold sqlite_run. destruct O as [(db' & -> & K' & _)|[_ NL]].
  { eexists. exists db'. split; [reflexivity|]. split; [exact K'|]. intros m Nm. now rewrite with_table_other. }
  exfalso. apply NL.
  destruct (kp_legal _ _ _ _ _ _ _ K) as [L1 L2]. constructor.
  - intros m t0 c i j r q x y Hm Hin Hk. destruct (string_dec m n) as [->|Nm]; [|rewrite with_table_other by assumption; now apply (L1 m t0 c)].
    rewrite (StoredProofs.same_table d n t0 rt WF Hm HR) in Hin. destruct (OP c Hin) as (P1 & P2). destruct Hk; congruence.
  - intros m t0 c f r x Hm Hin Hf Hr Fx. rewrite (with_table_other _ _ _ _ (no_target m t0 c f Hm Hin Hf)). apply (L2 m t0 c f r x Hm Hin Hf); [|exact Fx].
    destruct (string_dec m n) as [->|Nm]; [|now rewrite with_table_other in Hr by assumption]. rewrite with_table_same in Hr. now apply filter_In in Hr.
Qed.
Lemma relation_written D db (m : many X) owner : keeps D db -> m_owner m = Some owner -> m_table m = n -> given_fits json_text rt "owner" owner ->
  Forall (given_fits json_text rt "has") (m_new m) -> Forall (fun v => ~ is_custom v) (m_removed m) ->
  there_for D "owner" owner -> Forall (there_for D "has") (m_new m) ->
  exists D' m' db', many_save_on M m db = (Ok tt, m', db') /\ keeps D' db' /\ forall m, m <> n -> D' m = D m.
Proof.
  intros K Ho Ht GO F1 F2 T1 T2. unfold many_save_on. rewrite Ho, Ht. destruct (pairs_written owner GO (rev (m_new m)) D db K) as (D1 & db1 & -> & K1 & S1).
  { apply Forall_forall. intros v Hv. rewrite Forall_forall in F1. apply F1. now apply in_rev. }
  { exact T1. }
  { apply Forall_forall. intros v Hv. rewrite Forall_forall in T2. apply T2. now apply in_rev. }
  destruct (m_removed m) as [|v0 l0] eqn:Em; [exists D1; eauto|].
  destruct (pairs_removed D1 db1 (v0 :: l0) K1) as (D2 & db2 & -> & K2 & S2); [discriminate|assumption|].
  exists D2. do 2 eexists. split; [reflexivity|]. split; [exact K2|]. intros k Nk. rewrite S2 by exact Nk. now apply S1.
Qed.
End Pairs.

Lemma manys_written kv : relations_plain resolve s g d -> given_fits json_text t (do_pkcol g) kv -> forall fs (o : object) D db, keeps D db ->
  incl fs (relation_fields resolve s) -> NoDup (map fname fs) -> CodegenSpec.stores sem o (do_pk g) kv ->
  Forall (relation_ready json_text g d kv o) fs ->
  row_exists E g D kv ->
  (forall f m rt c k v, In f fs -> obj_get o (sf_ident f) = Some (FM m) -> In (relation_name (do_table g) f, rt) (a_tables d) ->
    In c (t_cols rt) -> c_name c = "has"%string -> MigrateSpec.refers c k -> In v (m_new m) ->
    exists p y, In p (D (fk_table k)) /\ field (fk_ref k) p = Some y /\ equal E v y) ->
  exists o' db', save_manys_on M sem g (map (fun f => (sf_ident f, relation_name (do_table g) f)) fs) o db = (Ok tt, o', db').
Proof.
  intros OP GK. induction fs as [|f fs IH]; intros o D db K I ND Hst F RE PT; [exists o, db; auto|].
  cbn [map save_manys_on]. inversion F as [|? ? (m & Hm & Ow & Fn & Fr) F2]; subst. rewrite Hm.
  assert (Efs : field_sql sem o (do_pk g) = Ok kv) by now apply field_sql_ok. rewrite Efs.
  assert (Hf : In f (relation_fields resolve s)) by (apply I; now left).
  destruct (mi_relations _ _ _ _ _ _ _ MI f Hf) as (rt & Hrt & RF).
  set (m1 := ensure_init m (relation_name (do_table g) f) kv (cd_type _ (sem (sf_ty (do_pk g))))).
  assert (M1 : m_owner m1 = Some kv /\ m_table m1 = relation_name (do_table g) f /\ m_new m1 = m_new m /\ m_removed m1 = m_removed m).
  { unfold m1, ensure_init. destruct Ow as [Eo|[Eo Et]]; rewrite Eo; cbn; auto. }
  destruct M1 as (O1 & O2 & O3 & O4).
  assert (OP1 : forall c, In c (t_cols rt) -> c_pk c = false /\ c_unique c = false) by (intros c Hin; destruct (OP f rt c Hf Hrt Hin) as (P1 & P2 & _); auto).
  assert (T1 : there_for rt D "owner" kv).
  { intros c k Hin En Hk. destruct (OP f rt c Hf Hrt Hin) as (_ & _ & P3). destruct (P3 k Hk En) as [-> ->].
    destruct RE as (r & Hr & HK). unfold has_key in HK. destruct (field (do_pkcol g) r) as [y|] eqn:Ey; [|discriminate HK]. exists r, y. split; [exact Hr|]. split; [exact Ey|].
    destruct (compare3 E CEq y kv) as [[|]|] eqn:Ec; try discriminate HK.
    assert (Gy : given_fits json_text t (do_pkcol g) y).
    { pose proof (kp_fit _ _ _ _ _ _ _ K _ _ HT) as FT. rewrite Forall_forall in FT. destruct (FT r Hr) as (_ & _ & FG). rewrite Forall_forall in FG.
      apply StoredProofs.field_pair in Ey. exact (FG _ Ey). }
    apply (EXK y kv Gy GK) in Ec. subst y. now apply (EXK kv kv GK GK). }
  assert (T2 : Forall (there_for rt D "has") (m_new m1)).
  { rewrite O3. apply Forall_forall. intros v Hv c k Hin En Hk. exact (PT f m rt c k v (or_introl eq_refl) Hm Hrt Hin En Hk Hv). }
  destruct (relation_written _ rt Hrt RF OP1 D db m1 kv K O1 O2) as (D1 & m2 & db1 & -> & K1 & S1).
  { now apply RF. } { rewrite O3. now apply Fn. } { now rewrite O4. } { exact T1. } { exact T2. }
  inversion ND as [|? ? N1 N2]; subst.
  assert (OTH : forall f', In f' fs -> obj_get (obj_set o (sf_ident f) (FM m2)) (sf_ident f') = obj_get o (sf_ident f')).
  { intros f' Hin. rewrite obj_get_set. destruct (String.eqb_spec (sf_ident f) (sf_ident f')) as [Eq|]; [|reflexivity].
    exfalso. apply N1. rewrite Eq. now apply (in_map fname). }
  apply (IH (obj_set o (sf_ident f) (FM m2)) D1 db1 K1).
  - intros x Hx. apply I. now right.
  - assumption.
  - destruct Hst as (u0 & Q1 & Q2). exists u0. split; [|assumption]. rewrite obj_get_set.
    destruct (String.eqb_spec (sf_ident f) (sf_ident (do_pk g))) as [Eq|]; [|assumption].
    exfalso. symmetry in Eq. revert Eq. now apply (row_relation resolve s Hc (do_pk g) f (pk_row resolve s g Hc Hg) Hf).
  - rewrite Forall_forall in F2 |- *. intros f' Hin. destruct (F2 f' Hin) as (m' & Hm' & R). exists m'. split; [|exact R]. now rewrite (OTH f' Hin).
  - destruct RE as (r & Hr & HK). exists r. split; [|exact HK]. rewrite S1; [exact Hr|]. intros Eq. symmetry in Eq. revert Eq. apply relation_not_t.
  - intros f' m' rt' c k v Hin Hm' Hrt' Hc' En Hk Hv. rewrite (OTH f' Hin) in Hm'.
    destruct (PT f' m' rt' c k v (or_intror Hin) Hm' Hrt' Hc' En Hk Hv) as (p & y & Hp & R). exists p, y. split; [|exact R]. rewrite S1; [exact Hp|].
    exact (no_target _ rt Hrt OP1 _ rt' c k Hrt' Hc' Hk).
Qed.
Lemma rows_apart f : In f (row_fields resolve s) -> ~ In (sf_ident f) (map fst (do_save_many g)).
Proof.
  intros Hf. rewrite (relations_eq resolve s g Hg), map_map. cbn [fst]. intros H. apply in_map_iff in H as (f' & Ef & Hf').
  symmetry in Ef. revert Ef. apply (row_relation resolve s Hc f f' Hf Hf').
Qed.

(** A model with keys of its own: the row. *)
Lemma own_row D db (o : object) : do_auto g = false -> keeps D db -> numbers_fit json_text fresh d db ->
  object_fits json_text resolve sem valid init s g d t o -> (forall k, CodegenSpec.stores sem o (do_pk g) k -> ~ row_exists E g D k) ->
  forall vs, non_auto_values sem g o true = Ok vs -> let r := combine icols vs in
    let D' := with_table D (do_table g) (D (do_table g) ++ [r]) in
    (exists db', save_row_on M sem valid init g o db = (Ok tt, o, db') /\ keeps D' db' /\ exists kv, CodegenSpec.stores sem o (do_pk g) kv /\ field (do_pkcol g) r = Some kv)
    \/ ((exists e, save_row_on M sem valid init g o db = (Err e, o, db)) /\ ~ legal E d D').
Proof.
  intros Ha KP NF OF NR.
  intros vs Ev r D'. pose proof (stored_values resolve sem s g Hc Hg o true vs (or_introl eq_refl) Ev) as [L Hv].
    assert (Wp : In (do_pk g) (written_fields resolve s)) by (apply (written_in resolve s g Hc Hg); split; [apply (pk_row resolve s g Hc Hg)|congruence]).
    destruct (Hv _ Wp) as (kv & Sk & Fk). pose proof Sk as (u & Hu & _).
    unfold save_row_on, obj_key. rewrite Hu, Ha. cbn [andb]. rewrite Ev. cbn [on_insert_or_replace sqlite_methods].
    assert (G := written_fit json_text resolve sem valid init s g kw dl conv veq read strict E d t DP o true vs (or_introl eq_refl) OF Ev).
    rewrite <- (icols_cols resolve s g Hc Hg Ha).
    assert (CF : call_fits json_text E dl d D (InsertOrReplace (do_table g) icols (do_pkcol g) vs)).
    { destruct (key_column json_text resolve sem s g kw dl conv veq read strict E d t DP) as (ck & Hck & CFk & Nck).
      exists t. split; [exact HT|]. split; [apply (icols_nodup resolve s g Hc Hg)|]. split; [exact G|]. split.
      - intros c Hin. rewrite (icols_cols resolve s g Hc Hg Ha). apply (columns_known json_text resolve sem s g kw dl conv veq read strict E d t DP). now exists c.
      - split; [|exact (proj1 (nm_not_excluded _ _ _ NO))]. exists ck. split; [assumption|]. split; [assumption|]. left. now apply (cf_pk _ _ _ _ CFk). }
    destruct (C55_call json_text kw dl conv veq read strict E fresh d D db _ ST US KP NF CF) as (b & D1 & _ & (k & Fk1 & ->) & O).
    rewrite (pkcol_eq resolve s g Hg) in Fk1. rewrite Fk in Fk1. injection Fk1 as <-.
    assert (Ex : existsb (has_key E (do_pkcol g) kv) (D (do_table g)) = false).
    { destruct (existsb (has_key E (do_pkcol g) kv) (D (do_table g))) eqn:Ex; [|reflexivity]. exfalso. apply existsb_exists in Ex as (q & Hq & Kq). apply (NR kv Sk). exists q. auto. }
    rewrite Ex in O. unfold sqlite_run. destruct O as [(db' & -> & K' & _)|[-> NL]].
    - left. exists db'. split; [reflexivity|]. split; [exact K'|]. exists kv. split; [exact Sk|]. rewrite (pkcol_eq resolve s g Hg). exact Fk.
    - right. split; [eexists; reflexivity|exact NL].
Qed.

(** A model with keys of its own. *)
Lemma own_legal D db (o : object) : do_auto g = false -> keeps D db -> forall vs, non_auto_values sem g o true = Ok vs ->
    (legal E d (with_table D (do_table g) (D (do_table g) ++ [combine icols vs])) <-> unclashing resolve sem s g E t D o /\ parents_there resolve sem s g E t D o).
Proof.
  intros Ha KP. intros vs Ev. rewrite (append_legal E d (do_table g) t WF HT D _ (kp_legal _ _ _ _ _ _ _ KP)).
    assert (FV : forall n x, field n (combine icols vs) = Some x <-> value_of resolve sem s o n x)
      by (intros n x; split; [apply (written_field o vs n x Ev)|apply (field_written o vs n x Ev); congruence]).
    split; intros [H1 H2]; split.
    - intros c q x y A1 A2 A3. apply H1; auto. now apply FV.
    - intros c f x A1 A2 A3. destruct (H2 c f x A1 A2) as [->|[H|(En & y & Fy & Ey)]]; [now apply FV|auto|auto|right; right]. split; [exact En|]. exists y. split; [now apply FV|exact Ey].
    - intros c q x y A1 A2 A3. apply H1; auto. now apply FV.
    - intros c f x A1 A2 A3. destruct (H2 c f x A1 A2) as [->|[H|(En & y & Fy & Ey)]]; [now apply FV|auto|auto|right; right]. split; [exact En|]. exists y. split; [now apply FV|exact Ey].
Qed.
Lemma own_accepted D db (o : object) : do_auto g = false -> nothing_pending resolve s o -> keeps D db -> numbers_fit json_text fresh d db ->
  object_fits json_text resolve sem valid init s g d t o -> (forall k, CodegenSpec.stores sem o (do_pk g) k -> ~ row_exists E g D k) ->
  ((exists o' db', save_on M sem valid init g o db = (Ok tt, o', db'))
   <-> has_values resolve sem s g o /\ unclashing resolve sem s g E t D o /\ parents_there resolve sem s g E t D o).
Proof.
  intros Ha RN KP NF OF NR.
  assert (MAIN : forall vs, non_auto_values sem g o true = Ok vs -> let r := combine icols vs in
    let D' := with_table D (do_table g) (D (do_table g) ++ [r]) in
    (exists o' db', save_on M sem valid init g o db = (Ok tt, o', db') /\ legal E d D') \/ ((exists e, save_on M sem valid init g o db = (Err e, o, db)) /\ ~ legal E d D')).
  { intros vs Ev r D'. destruct (own_row D db o Ha KP NF OF NR vs Ev) as [(db' & Es & K' & kv & Sk & _)|[(e & Es) NL]]; unfold save_on; rewrite Es.
    - left. destruct (manys_nothing M db' kv (do_save_many g) o (key_apart json_text resolve sem s g kw dl conv veq read strict E d t DP)) as (o' & Em & _).
      + now apply field_sql_ok.
      + apply (pending_on o o RN). reflexivity.
      + exists o', db'. split; [exact Em|]. apply K'.
    - right. split; [eexists; reflexivity|exact NL]. }
  assert (APP := own_legal D db o Ha KP).
  split.
  - intros (o' & db' & Hs). destruct (non_auto_values sem g o true) as [vs|e|] eqn:Ev.
    + destruct (MAIN vs eq_refl) as [(o1 & db1 & _ & L)|[(e & Es) _]]; [|congruence]. split; [exact (values_needed o vs Ev)|]. now apply (APP vs eq_refl).
    + unfold save_on, save_row_on in Hs. rewrite Ha, Ev in Hs. cbn [andb] in Hs. destruct (obj_key g o); discriminate Hs.
    + unfold save_on, save_row_on in Hs. rewrite Ha, Ev in Hs. cbn [andb] in Hs. destruct (obj_key g o); discriminate Hs.
  - intros (HV & UP). destruct (values_there o HV) as (vs & Ev). destruct (MAIN vs Ev) as [(o1 & db1 & Es & _)|[_ NL]]; [eauto|]. exfalso. apply NL. now apply (APP vs Ev).
Qed.

(** A model whose keys the database makes up. *)
Lemma insert_number D db vs : do_auto g = true -> keeps D db -> numbers_fit json_text fresh d db -> Forall2 (given_fits json_text t) icols vs ->
  exists b y, mget (do_table g) db = Some b /\ sqlite_write y = Ok (LInteger (fresh b)) /\ given_fits json_text t (do_pkcol g) y
  /\ let D' := with_table D (do_table g) (D (do_table g) ++ [combine icols vs ++ [(do_pkcol g, y)]]) in
     let call := insert_returning_pk json_text kw dl conv veq read E fresh db (do_table g) icols (do_pkcol g) (cd_type _ (sem (sf_ty (do_pk g)))) vs in
     (exists db', call = (Ok y, db') /\ keeps D' db') \/ (call = (Err (DbError 1), db) /\ ~ legal E d D').
Proof.
  intros Ha KP NF G. destruct (key_column json_text resolve sem s g kw dl conv veq read strict E d t DP) as (ck & Hck & CF & Nck).
  assert (ND := icols_nodup resolve s g Hc Hg). assert (NP := pk_not_written resolve s g Hc Hg Ha).
  pose proof (written_or_auto json_text resolve sem s g kw dl conv veq read strict E d t DP) as WA.
  assert (CFi : call_fits json_text E dl d D (InsertOnly (do_table g) icols vs)).
  { exists t. split; [exact HT|]. split; [assumption|]. split; [assumption|]. exact WA. }
  destruct (C56_key_partial json_text kw dl conv veq read strict E fresh d D db (do_table g) t icols vs ck _ ST US KP NF
              (dp_integers _ _ _ _ _ _ _ _ _ _ _ _ _ _ DP) CFi HT Hck (cf_type _ _ _ _ CF) (mi_rowid _ _ _ _ _ _ _ MI)) as (b & r & Hb & A & O).
  cbv zeta in A, O. rewrite Nck in O.
  destruct A as (t0 & extra & Ht0 & (G1 & G2 & G3) & ED).
  rewrite (StoredProofs.same_table d (do_table g) t0 t WF Ht0 HT) in *.
  assert (ER : r = combine icols vs ++ extra).
  { apply (f_equal (fun f => f (do_table g))) in ED. rewrite !with_table_same in ED. now apply app_inj_tail in ED. }
  assert (EE : exists y, extra = [(do_pkcol g, y)] /\ given_fits json_text t (do_pkcol g) y /\ sqlite_write y = Ok (LInteger (fresh b))).
  { assert (PI : In (do_pkcol g) (map fst extra)) by (apply G2; split; [exists ck; auto|assumption]).
    assert (AL : forall n, In n (map fst extra) -> n = do_pkcol g).
    { intros n Hn. apply G2 in Hn as [(c & H1 & <-) H2]. destruct (WA c H1) as [|[A _]]; [contradiction|].
      destruct (proj2 (mi_columns _ _ _ _ _ _ _ MI) c H1) as (f & Hf & CFc). destruct (proj1 (cf_auto _ _ _ _ CFc) A) as [Ef _]. subst f.
      rewrite (cf_name _ _ _ _ CFc). symmetry. apply (pkcol_eq resolve s g Hg). }
    destruct extra as [|[n y] [|[n2 y2] extra]]; [destruct PI| |].
    - rewrite (AL n (or_introl eq_refl)) in *. exists y. split; [reflexivity|]. inversion G3 as [|? ? Q _]; subst. exact Q.
    - exfalso. inversion G1 as [|? ? N1 _]; subst. apply N1. cbn [fst]. rewrite (AL n), (AL n2); cbn; auto. }
  destruct EE as (y & -> & Gy & Wy). subst r. exists b, y. split; [exact Hb|]. split; [exact Wy|]. split; [exact Gy|]. cbv zeta.
  destruct O as [(kv & db' & Ec & Fk & K')|O]; [left|now right].
  assert (y = kv).
  { rewrite field_app in Fk. destruct (field (do_pkcol g) (combine icols vs)) eqn:Ef.
    - exfalso. apply NP. apply StoredProofs.field_pair in Ef. now apply in_combine_l in Ef.
    - cbn in Fk. rewrite String.eqb_refl in Fk. congruence. }
  subst y. eauto.
Qed.

Lemma numbered_row (o : object) D db : unnumbered sem g valid o -> keeps D db -> numbers_fit json_text fresh d db ->
  object_fits json_text resolve sem valid init s g d t o -> forall vs, non_auto_values sem g o true = Ok vs ->
  exists b y, mget (do_table g) db = Some b /\ sqlite_write y = Ok (LInteger (fresh b)) /\ given_fits json_text t (do_pkcol g) y
  /\ let D' := with_table D (do_table g) (D (do_table g) ++ [combine icols vs ++ [(do_pkcol g, y)]]) in
     (exists o1 db', save_row_on M sem valid init g o db = (Ok tt, o1, db') /\ CodegenSpec.stores sem o1 (do_pk g) y /\ keeps D' db'
        /\ forall n, n <> sf_ident (do_pk g) -> obj_get o1 n = obj_get o n)
     \/ ((exists e, save_row_on M sem valid init g o db = (Err e, o, db)) /\ ~ legal E d D').
Proof.
  intros (Ha & (u & Hu & Hv) & _) KP NF OF vs Ev.
  assert (G := written_fit json_text resolve sem valid init s g kw dl conv veq read strict E d t DP o true vs (or_introl eq_refl) OF Ev).
  destruct (insert_number D db vs Ha KP NF G) as (b & y & Hb & Wy & Gy & O). exists b, y. split; [exact Hb|]. split; [exact Wy|]. split; [exact Gy|]. cbv zeta in O |- *.
  assert (ES : save_row_on M sem valid init g o db = insert_and_init_on M sem init g icols (Ok vs) o u db).
  { unfold save_row_on, obj_key. rewrite Hu, Ha, Hv. cbn [andb]. destruct (Nat.eqb_spec (List.length (dr_columns (do_result g))) 1) as [L1|L1]; [|now rewrite Ev].
    assert (EI := single resolve s g Hc Hg Ha L1). rewrite EI in G |- *. inversion G. reflexivity. }
  rewrite ES. unfold insert_and_init_on. cbn [on_insert_returning_pk sqlite_methods].
  destruct O as [(db' & -> & K')|[-> NL]].
  - left. destruct (of_key _ _ _ _ _ _ _ _ _ _ OF u Ha Hu Hv y Gy) as (u' & Ei & _ & Et). rewrite Ei.
    exists (obj_set o (sf_ident (do_pk g)) (FV u')), db'. split; [reflexivity|].
    split; [exists u'; split; [now rewrite obj_get_set, String.eqb_refl, Hu|exact Et]|]. split; [exact K'|].
    intros n Nn; rewrite obj_get_set; destruct (String.eqb_spec (sf_ident (do_pk g)) n); [congruence|reflexivity].
  - right. split; [eexists; reflexivity|exact NL].
Qed.
Lemma number_row (o : object) D db : unnumbered sem g valid o -> nothing_pending resolve s o -> keeps D db -> numbers_fit json_text fresh d db ->
  object_fits json_text resolve sem valid init s g d t o -> forall vs, non_auto_values sem g o true = Ok vs ->
  exists b y, mget (do_table g) db = Some b /\ sqlite_write y = Ok (LInteger (fresh b))
  /\ let D' := with_table D (do_table g) (D (do_table g) ++ [combine icols vs ++ [(do_pkcol g, y)]]) in
     (exists o' db', save_on M sem valid init g o db = (Ok tt, o', db') /\ CodegenSpec.stores sem o' (do_pk g) y /\ legal E d D'
        /\ forall f, In f (row_fields resolve s) -> sf_ident f <> sf_ident (do_pk g) -> obj_get o' (sf_ident f) = obj_get o (sf_ident f))
     \/ ((exists e, save_on M sem valid init g o db = (Err e, o, db)) /\ ~ legal E d D').
Proof.
  intros UN RN KP NF OF vs Ev. destruct (numbered_row o D db UN KP NF OF vs Ev) as (b & y & Hb & Wy & _ & O). exists b, y. split; [exact Hb|]. split; [exact Wy|]. cbv zeta in O |- *.
  unfold save_on. destruct O as [(o1 & db' & -> & S1 & K' & S2)|[(e & ->) NL]]; [left|right; split; [eexists; reflexivity|exact NL]].
  pose proof (key_apart json_text resolve sem s g kw dl conv veq read strict E d t DP) as KA.
  destruct (manys_nothing M db' y (do_save_many g) _ KA (proj2 (field_sql_ok _ _ _ _) S1) (pending_on o _ RN S2)) as (o' & Es & Eo).
  exists o', db'. split; [exact Es|]. split; [|split; [apply K'|]].
  - destruct S1 as (w & W1 & W2). exists w. split; [now rewrite (Eo _ KA)|exact W2].
  - intros f Hf Nf. rewrite (Eo _ (rows_apart f Hf)). now apply S2.
Qed.

Lemma number_legal (o : object) D db : unnumbered sem g valid o -> keeps D db -> number_free g E fresh D db -> key_refers_not g t ->
  unclashing resolve sem s g E t D o -> parents_there resolve sem s g E t D o -> forall vs, non_auto_values sem g o true = Ok vs ->
  forall b y, mget (do_table g) db = Some b -> sqlite_write y = Ok (LInteger (fresh b)) ->
  legal E d (with_table D (do_table g) (D (do_table g) ++ [combine icols vs ++ [(do_pkcol g, y)]])).
Proof.
  intros UN KP FR KR UC PT vs Ev b y Hb Wy.
  destruct UN as (Ha & _ & NK). assert (NP := pk_not_written resolve s g Hc Hg Ha).
  assert (FP : field (do_pkcol g) (combine icols vs) = None).
  { destruct (field (do_pkcol g) (combine icols vs)) eqn:Ef; [|reflexivity]. exfalso. apply NP. apply StoredProofs.field_pair in Ef. now apply in_combine_l in Ef. }
  assert (FO : forall n x, n <> do_pkcol g -> field n (combine icols vs ++ [(do_pkcol g, y)]) = Some x -> value_of resolve sem s o n x).
  { intros n x Nn F. apply (written_field o vs n x Ev). rewrite field_app in F. destruct (field n (combine icols vs)); [exact F|]. cbn in F.
    destruct (String.eqb_spec (do_pkcol g) n); congruence. }
  assert (OF2 : forall n x, value_of resolve sem s o n x -> field n (combine icols vs ++ [(do_pkcol g, y)]) = Some x).
  { intros n x Vx. rewrite field_app. destruct (string_dec n (do_pkcol g)) as [->|Nn]; [|now rewrite (field_written o vs n x Ev (fun _ => Nn) Vx)].
    exfalso. destruct Vx as (f & Hf & Nf & Sf). apply (NK x).
    replace (do_pk g) with f; [exact Sf|]. apply (row_inj resolve s Hc f (do_pk g) Hf (pk_row resolve s g Hc Hg)). now rewrite Nf, (pkcol_eq resolve s g Hg). }
  apply (append_legal E d (do_table g) t WF HT D _ (kp_legal _ _ _ _ _ _ _ KP)). split.
  - intros c q x z Hcc Hk Fx Hq Fz. destruct (string_dec (c_name c) (do_pkcol g)) as [Ec|Nc].
    + rewrite Ec in Fx, Fz. rewrite field_app, FP in Fx. cbn in Fx. rewrite String.eqb_refl in Fx. injection Fx as <-. exact (FR b q y z Hb Hq Fz Wy).
    + exact (UC c q x z Hcc Hk (FO _ x Nc Fx) Hq Fz).
  - intros c f x Hcc Hf Fx. destruct (PT c f x Hcc Hf (FO _ x (KR c f Hcc Hf) Fx)) as [->|[H|(En & z & Vz & Ez)]]; [auto|auto|right; right].
    split; [exact En|]. exists z. split; [now apply OF2|exact Ez].
Qed.
Lemma auto_accepted (o : object) D db : unnumbered sem g valid o -> nothing_pending resolve s o -> keeps D db -> numbers_fit json_text fresh d db ->
  object_fits json_text resolve sem valid init s g d t o -> number_free g E fresh D db -> key_refers_not g t ->
  has_values resolve sem s g o -> unclashing resolve sem s g E t D o -> parents_there resolve sem s g E t D o ->
  exists o' db', save_on M sem valid init g o db = (Ok tt, o', db').
Proof.
  intros UN RN KP NF OF FR KR HV UC PT. destruct (values_there o HV) as (vs & Ev).
  destruct (number_row o D db UN RN KP NF OF vs Ev) as (b & y & Hb & Wy & [(o' & db' & Es & _)|[_ NL]]); [eauto|]. exfalso. apply NL. exact (number_legal o D db UN KP FR KR UC PT vs Ev b y Hb Wy).
Qed.

Lemma same_key kv : given_fits json_text t (do_pkcol g) kv -> compare3 E CEq kv kv = Some true.
Proof. intros G. now apply (EXK kv kv G G). Qed.
Lemma added_exists D rows r kv : given_fits json_text t (do_pkcol g) kv -> field (do_pkcol g) r = Some kv -> row_exists E g (with_table D (do_table g) (rows ++ [r])) kv.
Proof.
  intros G F. exists r. rewrite with_table_same. split; [apply in_app_iff; right; now left|]. unfold has_key. now rewrite F, (same_key kv G).
Qed.
(** * Objects that are to be related to others *)
Lemma key_given D db (o o1 : object) (kv : SqlVal) rows r : keeps (with_table D (do_table g) (rows ++ [r])) db -> field (do_pkcol g) r = Some kv -> given_fits json_text t (do_pkcol g) kv.
Proof.
  intros K F. pose proof (kp_fit _ _ _ _ _ _ _ K _ _ HT) as FT. rewrite with_table_same, Forall_forall in FT.
  destruct (FT r) as (_ & _ & FG); [apply in_app_iff; right; now left|]. rewrite Forall_forall in FG. apply StoredProofs.field_pair in F. exact (FG _ F).
Qed.
Lemma related_saved D db (o o1 : object) r kv : let D' := with_table D (do_table g) (D (do_table g) ++ [r]) in
  keeps D' db -> field (do_pkcol g) r = Some kv -> CodegenSpec.stores sem o1 (do_pk g) kv ->
  (forall n, n <> sf_ident (do_pk g) -> obj_get o1 n = obj_get o n) -> object_fits json_text resolve sem valid init s g d t o ->
  (CodegenSpec.stores sem o (do_pk g) kv \/ ~ has_own_key valid g o) ->
  relations_plain resolve s g d -> partners_there resolve s g E d D o ->
  exists o' db', save_manys_on M sem g (do_save_many g) o1 db = (Ok tt, o', db').
Proof.
  intros D' K F S1 S2 OF OK RP PT. pose proof (key_given D db o o1 kv _ r K F) as GK.
  rewrite (relations_eq resolve s g Hg).
  assert (RI : forall f, In f (relation_fields resolve s) -> sf_ident f <> sf_ident (do_pk g)).
  { intros f Hf Eq. symmetry in Eq. revert Eq. apply (row_relation resolve s Hc (do_pk g) f (pk_row resolve s g Hc Hg) Hf). }
  apply (manys_written kv RP GK (relation_fields resolve s) o1 D' db K (incl_refl _) (relations_nodup resolve s Hc) S1).
  - apply Forall_forall. intros f Hf. destruct (of_relations _ _ _ _ _ _ _ _ _ _ OF f Hf) as (m & Hm & Ow & Fn & Fr). exists m.
    split; [now rewrite (S2 _ (RI f Hf))|]. split; [|auto]. destruct Ow as [Ow|[HO (k & Hk & Ow & Tb)]]; [now left|right].
    destruct OK as [Sk|NK]; [|contradiction]. rewrite (stores_fun sem o _ _ _ Sk Hk). auto.
  - exact (added_exists D _ r kv GK F).
  - intros f m rt c k v Hf Hm Hrt Hin En Hk Hv. rewrite (S2 _ (RI f Hf)) in Hm. destruct (PT f m rt c k v Hf Hm Hrt Hin En Hk Hv) as (q & y & Hq & R).
    exists q, y. split; [|exact R]. unfold D'. destruct (string_dec (fk_table k) (do_table g)) as [Et|N].
    + rewrite Et in Hq |- *. rewrite with_table_same. apply in_app_iff. now left.
    + now rewrite with_table_other.
Qed.
Lemma own_related D db (o : object) : do_auto g = false -> relations_plain resolve s g d -> keeps D db -> numbers_fit json_text fresh d db ->
  object_fits json_text resolve sem valid init s g d t o -> (forall k, CodegenSpec.stores sem o (do_pk g) k -> ~ row_exists E g D k) ->
  has_values resolve sem s g o -> unclashing resolve sem s g E t D o -> parents_there resolve sem s g E t D o -> partners_there resolve s g E d D o ->
  exists o' db', save_on M sem valid init g o db = (Ok tt, o', db').
Proof.
  intros Ha RP KP NF OF NR HV UC PA PT. destruct (values_there o HV) as (vs & Ev). unfold save_on.
  destruct (own_row D db o Ha KP NF OF NR vs Ev) as [(db' & -> & K' & kv & Sk & Fk)|[_ NL]].
  - exact (related_saved D db' o o _ kv K' Fk Sk (fun _ _ => eq_refl) OF (or_introl Sk) RP PT).
  - exfalso. apply NL. apply (own_legal D db o Ha KP vs Ev). auto.
Qed.
Lemma auto_related D db (o : object) : unnumbered sem g valid o -> relations_plain resolve s g d -> keeps D db -> numbers_fit json_text fresh d db ->
  object_fits json_text resolve sem valid init s g d t o -> number_free g E fresh D db -> key_refers_not g t ->
  has_values resolve sem s g o -> unclashing resolve sem s g E t D o -> parents_there resolve sem s g E t D o -> partners_there resolve s g E d D o ->
  exists o' db', save_on M sem valid init g o db = (Ok tt, o', db').
Proof.
  intros UN RP KP NF OF FR KR HV UC PA PT. destruct (values_there o HV) as (vs & Ev). unfold save_on.
  destruct (numbered_row o D db UN KP NF OF vs Ev) as (b & y & Hb & Wy & _ & [(o1 & db' & -> & S1 & K' & S2)|[_ NL]]).
  - assert (NK : ~ has_own_key valid g o).
    { destruct UN as (Ha & (u & Hu & Hv) & _). intros HO. destruct (HO Ha) as (_ & u2 & Hu2 & Hv2). congruence. }
    assert (F : field (do_pkcol g) (combine icols vs ++ [(do_pkcol g, y)]) = Some y).
    { rewrite field_app. destruct (field (do_pkcol g) (combine icols vs)) eqn:Ef; [|cbn; now rewrite String.eqb_refl].
      exfalso. apply (pk_not_written resolve s g Hc Hg (proj1 UN)). apply StoredProofs.field_pair in Ef. now apply in_combine_l in Ef. }
    exact (related_saved D db' o o1 _ y K' F S1 S2 OF (or_intror NK) RP PT).
  - exfalso. apply NL. exact (number_legal o D db UN KP FR KR UC PA vs Ev b y Hb Wy).
Qed.
Lemma auto_needed (o o' : object) D db db' : unnumbered sem g valid o -> nothing_pending resolve s o -> keeps D db -> numbers_fit json_text fresh d db ->
  object_fits json_text resolve sem valid init s g d t o -> save_on M sem valid init g o db = (Ok tt, o', db') ->
  has_values resolve sem s g o /\ unclashing resolve sem s g E t D o' /\ parents_there resolve sem s g E t D o'.
Proof.
  intros UN RN KP NF OF Hs. pose proof UN as (Ha & (u & Hu & Hv) & NK).
  destruct (non_auto_values sem g o true) as [vs|e|] eqn:Ev.
  2,3: exfalso; unfold save_on, save_row_on, obj_key in Hs; rewrite Hu, Ha, Hv in Hs; cbn [andb] in Hs;
    destruct (Nat.eqb_spec (List.length (dr_columns (do_result g))) 1) as [L1|L1];
    [assert (EI := single resolve s g Hc Hg Ha L1); assert (W0 : written_fields resolve s = []) by (rewrite (icols_eq resolve s g Hc Hg) in EI; destruct (written_fields resolve s); [reflexivity|discriminate EI]);
     assert (Ev0 : non_auto_values sem g o true = Ok []) by (apply (C31_write resolve U (many X) sem s g o true [] Hc Hg (or_introl eq_refl)); rewrite W0; constructor); congruence
    |rewrite Ev in Hs; discriminate Hs].
  destruct (number_row o D db UN RN KP NF OF vs Ev) as (b & y & Hb & Wy & [(o1 & db1 & Es & SP & L & SO)|[(e & Es) _]]); [|congruence].
  rewrite Es in Hs. injection Hs as -> ->. split; [exact (values_needed o vs Ev)|].
  apply (append_legal E d (do_table g) t WF HT D _ (kp_legal _ _ _ _ _ _ _ KP)) in L as [L1 L2].
  assert (NP := pk_not_written resolve s g Hc Hg Ha).
  assert (FV : forall n x, value_of resolve sem s o' n x <-> field n (combine icols vs ++ [(do_pkcol g, y)]) = Some x).
  { intros n x. rewrite field_app. destruct (string_dec n (do_pkcol g)) as [->|Nn].
    - destruct (field (do_pkcol g) (combine icols vs)) eqn:Ef; [exfalso; apply NP; apply StoredProofs.field_pair in Ef; now apply in_combine_l in Ef|].
      cbn. rewrite String.eqb_refl.
      split.
      + intros (f & Hf & Nf & Sf). assert (Ef2 : f = do_pk g) by (apply (row_inj resolve s Hc f (do_pk g) Hf (pk_row resolve s g Hc Hg)); now rewrite Nf, (pkcol_eq resolve s g Hg)).
        subst f. now rewrite (stores_fun sem _ _ _ _ Sf SP).
      + intros [= <-]. exists (do_pk g). split; [apply (pk_row resolve s g Hc Hg)|]. split; [symmetry; apply (pkcol_eq resolve s g Hg)|exact SP].
    - assert (SAME : value_of resolve sem s o' n x <-> value_of resolve sem s o n x).
      { assert (NI : forall f, strip_raw (sf_ident f) = n -> sf_ident f <> sf_ident (do_pk g)) by (intros f <- EQ; apply Nn; now rewrite EQ, (pkcol_eq resolve s g Hg)).
        split; intros (f & Hf & Nf & w & W1 & W2); exists f; (split; [exact Hf|]); (split; [exact Nf|]); exists w; split; auto.
        - now rewrite <- (SO f Hf (NI f Nf)).
        - now rewrite (SO f Hf (NI f Nf)). }
      rewrite SAME. split.
      + intros Vx. now rewrite (field_written o vs n x Ev (fun _ => Nn) Vx).
      + intros F. apply (written_field o vs n x Ev). destruct (field n (combine icols vs)); [exact F|]. cbn in F. destruct (String.eqb_spec (do_pkcol g) n); congruence. }
  split.
  - intros c q x z Hcc Hk Vx Hq Fz. apply FV in Vx. exact (L1 c q x z Hcc Hk Vx Hq Fz).
  - intros c f x Hcc Hf Vx. apply FV in Vx. destruct (L2 c f x Hcc Hf Vx) as [->|[H|(En & z & Fz & Ez)]]; [auto|auto|right; right]. split; [exact En|]. exists z. split; [now apply FV|exact Ez].
Qed.
End New.
