(** Saving and getting objects on SQLite does to the rows what Obj.v says. *)
From Coq Require Import Permutation.
From Verif Require Import Base SqlVal Adb AdbSpec Sql SqlStmt Query QuerySpec Stmt StmtSpec LiteralSpec Ddl DdlSpec
  Backend BackendSpec Turso SqliteSem MigrateSpec SqliteData SqliteKey DataCalls KeyCall StoredSpec StoredRel MigrateProofs StoredProofs StoredMain StoredLoad
  Conn ConnProofs Many ManyProofs Codegen CodegenSpec CodegenProofs Props_Models Obj ObjSpec ObjProofs Props_Key Saved SavedSpec.

(** Saving over the methods of Conn.v is Obj.v's saving. *)
Lemma save_on_conn {U X} sem valid init g d kw b E gen (o : @object U (many X)) w :
  save_on (conn_methods d kw b E gen) sem valid init g o w = save sem valid init g d kw b E gen o w.
Proof. reflexivity. Qed.
Lemma delete_on_conn {U X} sem g d kw b E gen (o : @object U (many X)) w :
  delete_on (conn_methods d kw b E gen) sem g o w = delete sem g d kw b E gen o w.
Proof. reflexivity. Qed.

(** The engine makes up the key [kv]. *)
Definition numbered (g : dbobject) (kv : SqlVal) : Sql.db -> string -> list string -> Sql.row :=
  fun _ n cols => if String.eqb n (do_table g) && negb (existsb (String.eqb (do_pkcol g)) cols) then [(do_pkcol g, kv)] else [].
Lemma numbered_fills g kv : fills_rest g (numbered g kv).
Proof.
  intros D cs ND. unfold numbered. rewrite String.eqb_refl. cbn [andb]. destruct (existsb (String.eqb (do_pkcol g)) cs) eqn:Ex; cbn [negb map].
  - now rewrite app_nil_r.
  - apply NoDup_app_disjoint; [assumption|repeat constructor; cbn; tauto|]. intros x Hx [<-|[]]. apply existsb_name in Hx. cbn in Hx. congruence.
Qed.

Definition agree {A} (r r' : outcome A) : Prop :=
  match r, r' with Ok a, Ok b => a = b | Err _, Err _ => True | Panic, Panic => True | _, _ => False end.

Section Sim.
Context {U X : Type}.
Variable json_text : string -> option string.
Variable resolve : bool -> list string -> string -> option string.
Variable sem : ty -> codec U.
Variable valid : U -> bool.
Variable init : U -> SqlVal -> outcome unit * U.
Variable s : sdef.
Variable g : dbobject.
Variable kw : string -> bool.
Variable dl : dialect.
Variable conv : bool -> list string -> lvalue -> option lvalue.
Variable veq : lvalue -> lvalue -> bool.
Variable read : bool -> string -> f64.
Variable strict : bool.
Variable E : engine.
Variable fresh : etab -> Z.
Variable d : ADB.
Variable t : ATable.
Hypothesis DP : deployed json_text resolve sem s g kw dl conv veq read strict E d t.

Notation object := (@object U (many X)).
Notation keeps := (keeps json_text E conv strict d).
Notation given_fits := (given_fits json_text).
Notation M := (sqlite_methods json_text kw dl conv veq read E fresh).
Notation C gen := (conn_methods dl kw Sqlite E gen).
Notation fname := (fun f : sfield => strip_raw (sf_ident f)).
Notation cols := (map fst (dr_columns (do_result g))).
Notation icols := (map fst (do_insert g)).
Notation data_call := (data_call kw dl conv veq read E fresh).

Let Hc := dp_compiles _ _ _ _ _ _ _ _ _ _ _ _ _ _ DP.
Let Hg := dp_code _ _ _ _ _ _ _ _ _ _ _ _ _ _ DP.
Let ST := dp_engine _ _ _ _ _ _ _ _ _ _ _ _ _ _ DP.
Let US := dp_schema _ _ _ _ _ _ _ _ _ _ _ _ _ _ DP.
Let NO := dp_names _ _ _ _ _ _ _ _ _ _ _ _ _ _ DP.
Let MI := dp_model _ _ _ _ _ _ _ _ _ _ _ _ _ _ DP.
Let EXK := dp_exact _ _ _ _ _ _ _ _ _ _ _ _ _ _ DP.
Let KW := sr_quotes _ _ _ _ _ _ _ ST.
Let EX := sr_excluded _ _ _ _ _ _ _ ST.
Let EO := sr_engine _ _ _ _ _ _ _ ST.
Let CS := sr_compares _ _ _ _ _ _ _ ST.
Let SO := sr_storage _ _ _ _ _ _ _ ST.
Let WF := us_wf _ US.
Let SF := us_fine _ US.
Let RK := us_keys _ US.
Let HT := mi_table _ _ _ _ _ _ _ MI.

(** * The same rows *)
Lemma keeps_ext D D2 db : (forall n, D n = D2 n) -> keeps D db -> keeps D2 db.
Proof.
  intros EQ [K1 K2 K3 K4 K5 [L1 L2]]. constructor; try assumption.
  - intros n. specialize (K3 n). now rewrite <- EQ.
  - intros n t0 H. rewrite <- EQ. now apply K4.
  - constructor.
    + intros n t0 c i j r r' x y. rewrite <- EQ. apply L1.
    + intros n t0 c f r x H1 H2 H3. rewrite <- EQ. intros H4 H5. rewrite <- EQ. now apply (L2 n t0 c f r x).
Qed.

(** What SQLite does to the database is what the methods of Conn.v do to the rows, for
    the right fates of the statements. *)
Definition sim {A} (x : outcome A * edb) (D : Sql.db) (h : world -> outcome A * world) : Prop :=
  exists D' fs r', keeps D' (snd x) /\ agree (fst x) r'
    /\ forall rest, h {| w_db := D; w_fate := fs ++ rest |} = (r', {| w_db := D'; w_fate := rest |}).
Definition sim3 {A B} (x : outcome A * B * edb) (D : Sql.db) (h : world -> outcome A * B * world) : Prop :=
  exists D' fs r', keeps D' (snd x) /\ agree (fst (fst x)) r'
    /\ forall rest, h {| w_db := D; w_fate := fs ++ rest |} = (r', snd (fst x), {| w_db := D'; w_fate := rest |}).

Lemma sim_same {A B} (r : outcome A) (y : B) db D h : keeps D db -> (forall w, h w = (r, y, w)) -> sim3 (r, y, db) D h.
Proof. intros K H. exists D, [], r. split; [assumption|]. split; [destruct r; cbn; auto|]. intros rest. apply H. Qed.

Lemma sim_run c D D1 D2 db n (h : world -> outcome unit * world) : keeps D db ->
  ((exists db', data_call db c = Ok db' /\ keeps D1 db' /\ forall k, k <> n -> mget k db' = mget k db)
   \/ (data_call db c = Err (DbError 1) /\ ~ legal E d D1)) ->
  (forall n, D1 n = D2 n) -> (forall fate, h {| w_db := D; w_fate := fate |} = by_fate {| w_db := D; w_fate := fate |} D2) ->
  sim (sqlite_run kw dl conv veq read E fresh c db) D h.
Proof.
  intros K O EQ H. unfold sqlite_run. destruct O as [(db' & -> & K' & _)|[-> _]].
  - exists D2, [Works], (Ok tt). split; [cbn; now apply (keeps_ext D1)|]. split; [reflexivity|]. intros rest. rewrite H. reflexivity.
  - exists D, [Refused], (Err (DbError 0)). split; [assumption|]. split; [exact I|]. intros rest. rewrite H. reflexivity.
Qed.

Lemma there D db n t0 : keeps D db -> In (n, t0) (a_tables d) -> exists b, mget n db = Some b.
Proof. intros K H. destruct (kp_tables _ _ _ _ _ _ _ K n t0 H) as (b & Hb & _). eauto. Qed.
Lemma ident_of n t0 : In (n, t0) (a_tables d) -> identifier n = true.
Proof. exact (name_ok d WF SF n t0). Qed.

(** * Relations *)
Section Relation.
Variables (n : string) (rt : ATable).
Hypothesis HR : In (n, rt) (a_tables d).
Hypothesis RF : relation_for json_text g t rt.
Hypothesis Nn : n <> do_table g.
Variable kv0 : SqlVal.
Notation gen := (numbered g kv0).

Lemma gen_nothing D cs : gen D n cs = [].
Proof. unfold numbered. destruct (String.eqb_spec n (do_table g)); [contradiction|reflexivity]. Qed.

Lemma insert_sim D db owner v : keeps D db -> given_fits rt "owner" owner -> given_fits rt "has" v ->
  sim (on_insert_only M n many_columns [owner; v] db) D (on_insert_only (C gen) n many_columns [owner; v]).
Proof.
  intros K G1 G2. destruct (there D db n rt K HR) as (b & Hb). destruct RF as (R1 & R2 & _).
  assert (GN : generated json_text rt many_columns (fresh b) []).
  { split; [constructor|]. split; [|constructor]. intros m. cbn. rewrite R1. intuition congruence. }
  destruct (insert_call json_text E veq conv read strict fresh kw dl EO CS SO KW d WF SF RK D db n many_columns [owner; v] b K Hb) as (D' & (t0 & extra & Ht & G & ->) & O).
  - intros t0 c Ht Hin A. rewrite (StoredProofs.same_table d n t0 rt WF Ht HR) in Hin. rewrite (R2 c Hin) in A. discriminate A.
  - exists rt. split; [exact HR|]. split; [repeat constructor; cbn; intuition discriminate|]. split; [repeat constructor; assumption|].
    intros c Hin. left. assert (H : has_column rt (c_name c)) by now exists c. apply R1 in H as [->| ->]; cbn; auto.
  - rewrite (StoredProofs.same_table d n t0 rt WF Ht HR) in G. destruct G as (_ & G & _).
    assert (extra = []).
    { destruct extra as [|[m x] extra]; [reflexivity|]. exfalso. destruct (proj1 (G m) (or_introl eq_refl)) as [H1 H2]. apply R1 in H1. apply H2. cbn. intuition. }
    subst extra. eapply sim_run; [exact K|exact O|intros k; reflexivity|]. intros fate.
    cbn [on_insert_only conn_methods]. rewrite (insert_only_effect dl kw Sqlite E gen KW n many_columns [owner; v] _ (ident_of n rt HR)); [|repeat constructor|exact I|reflexivity].
    unfold inserted. cbn [w_db]. now rewrite gen_nothing.
Qed.

Lemma insert_new_sim owner : given_fits rt "owner" owner -> forall l D db, keeps D db -> Forall (given_fits rt "has") l ->
  sim3 (insert_new_on M n owner l db) D (insert_new_on (C gen) n owner l).
Proof.
  intros GO. induction l as [|v l IH]; intros D db K F.
  - apply sim_same; [assumption|reflexivity].
  - inversion F as [|? ? Fv Fl]; subst. destruct (insert_sim D db owner v K GO Fv) as (D' & fs & r' & K' & A & H).
    cbn [insert_new_on]. destruct (on_insert_only M n many_columns [owner; v] db) as [r db'] eqn:Er. cbn [fst snd] in K', A.
    destruct r as [u|e|].
    + destruct r' as [u'|e'|]; try contradiction. destruct (IH D' db' K' Fl) as (D2 & fs2 & r2 & K2 & A2 & H2).
      exists D2, (fs ++ fs2), r2. split; [assumption|]. split; [assumption|]. intros rest. rewrite <- app_assoc, H. apply H2.
    + destruct r' as [u'|e'|]; try contradiction. exists D', fs, (Err e'). split; [assumption|]. split; [exact I|]. intros rest. now rewrite H.
    + destruct r' as [u'|e'|]; try contradiction. exists D', fs, Panic. split; [assumption|]. split; [exact I|]. intros rest. now rewrite H.
Qed.

Lemma delete_sim D db l : keeps D db -> l <> [] -> Forall (fun v => ~ is_custom v) l ->
  sim (on_delete_where M n (BIn "has" l) db) D (on_delete_where (C gen) n (BIn "has" l)).
Proof.
  intros K NE F. destruct RF as (R1 & _).
  assert (Hh : Forall (fun r : Sql.row => In "has"%string (map fst r)) (D n)).
  { eapply Forall_impl; [|exact (kp_fit _ _ _ _ _ _ _ K n rt HR)]. cbn beta. intros r (_ & N2 & _). apply N2, R1. now right. }
  assert (BV : Forall (fun v => ~ is_custom v) (bound_values (BIn "has" l))).
  { cbn [bound_values]. apply Forall_forall. intros v Hv. apply in_flat_map in Hv as (w & Hw & Hv). rewrite Forall_forall in F.
    assert (v = w) by (destruct w; cbn in Hv; intuition). subst. now apply F. }
  destruct (delete_call json_text E veq conv read strict fresh kw dl EO CS SO KW d WF SF RK D db n (BIn "has" l) K) with (z := 0%Z) as (D' & A & O).
  { exists rt. split; [exact HR|]. split; [exact I|]. split; [split; [reflexivity|intros; contradiction]|]. split; [now apply in_ok|assumption]. }
  cbn [asks] in A. subst D'. eapply sim_run; [exact K|exact O|intros k; reflexivity|]. intros fate.
  cbn [on_delete_where conn_methods]. apply (delete_where_effect dl kw Sqlite E gen KW EO n (BIn "has" l)); cbn [w_db]; try exact I; [exact (ident_of n rt HR)|split; [reflexivity|intros; contradiction]|now apply in_ok].
Qed.

Lemma many_sim D db (m : many X) owner : keeps D db -> m_owner m = Some owner -> m_table m = n -> given_fits rt "owner" owner ->
  Forall (given_fits rt "has") (m_new m) -> Forall (fun v => ~ is_custom v) (m_removed m) ->
  sim3 (many_save_on M m db) D (many_save_on (C gen) m).
Proof.
  intros K Ho Ht GO F1 F2. unfold many_save_on. rewrite Ho, Ht.
  destruct (insert_new_sim owner GO (rev (m_new m)) D db K) as (D1 & fs & r' & K1 & A & H).
  { apply Forall_forall. intros v Hv. rewrite Forall_forall in F1. apply F1. now apply in_rev. }
  destruct (insert_new_on M n owner (rev (m_new m)) db) as [[r l] db1] eqn:Er. cbn [fst snd] in K1, A, H.
  destruct r as [u|e|], r' as [u'|e'|]; try contradiction.
  - destruct (m_removed m) as [|v0 l0] eqn:Em.
    + exists D1, fs, (Ok tt). split; [assumption|]. split; [reflexivity|]. intros rest. now rewrite H.
    + destruct (delete_sim D1 db1 (v0 :: l0) K1) as (D2 & fs2 & r2 & K2 & A2 & H2); [discriminate|assumption|].
      destruct (on_delete_where M n (BIn "has" (v0 :: l0)) db1) as [r db2]. cbn [fst snd] in K2, A2.
      exists D2, (fs ++ fs2), r2. split; [assumption|]. split; [assumption|]. intros rest. rewrite <- app_assoc, H, H2. reflexivity.
  - exists D1, fs, (Err e'). split; [assumption|]. split; [exact I|]. intros rest. now rewrite H.
  - exists D1, fs, Panic. split; [assumption|]. split; [exact I|]. intros rest. now rewrite H.
Qed.
End Relation.

(** * All relations of an object *)
Definition relation_ready (kv : SqlVal) (o : object) (f : sfield) : Prop :=
  exists m, obj_get o (sf_ident f) = Some (FM m)
    /\ (m_owner m = None \/ m_owner m = Some kv /\ m_table m = relation_name (do_table g) f)
    /\ (forall rt, In (relation_name (do_table g) f, rt) (a_tables d) -> Forall (given_fits rt "has") (m_new m))
    /\ Forall (fun v => ~ is_custom v) (m_removed m).

Lemma manys_sim kv0 kv : given_fits t (do_pkcol g) kv -> forall fs (o : object) D db, keeps D db ->
  incl fs (relation_fields resolve s) -> NoDup (map fname fs) ->
  CodegenSpec.stores sem o (do_pk g) kv -> Forall (relation_ready kv o) fs ->
  sim3 (save_manys_on M sem g (map (fun f => (sf_ident f, relation_name (do_table g) f)) fs) o db) D
       (save_manys_on (C (numbered g kv0)) sem g (map (fun f => (sf_ident f, relation_name (do_table g) f)) fs) o).
Proof.
  intros GK. induction fs as [|f fs IH]; intros o D db K I ND Hst F.
  - apply sim_same; [assumption|reflexivity].
  - cbn [map save_manys_on]. inversion F as [|? ? (m & Hm & Ow & Fn & Fr) F2]; subst. rewrite Hm.
    assert (Efs : field_sql sem o (do_pk g) = Ok kv) by now apply field_sql_ok. rewrite Efs.
    assert (Hf : In f (relation_fields resolve s)) by (apply I; now left).
    destruct (mi_relations _ _ _ _ _ _ _ MI f Hf) as (rt & Hrt & RF).
    set (m1 := ensure_init m (relation_name (do_table g) f) kv (cd_type _ (sem (sf_ty (do_pk g))))).
    assert (M1 : m_owner m1 = Some kv /\ m_table m1 = relation_name (do_table g) f /\ m_new m1 = m_new m /\ m_removed m1 = m_removed m).
    { unfold m1, ensure_init. destruct Ow as [Eo|[Eo Et]]; rewrite Eo; cbn; auto. }
    destruct M1 as (O1 & O2 & O3 & O4).
    destruct (many_sim _ rt Hrt RF (relation_not_t g f) kv0 D db m1 kv K O1 O2) as (D1 & gs & r' & K1 & A & H).
    { now apply RF. } { rewrite O3. now apply Fn. } { now rewrite O4. }
    destruct (many_save_on M m1 db) as [[r m2] db1] eqn:Er. cbn [fst snd] in K1, A, H.
    destruct r as [u|e|], r' as [u'|e'|]; try contradiction.
    + inversion ND as [|? ? N1 N2]; subst.
      destruct (IH (obj_set o (sf_ident f) (FM m2)) D1 db1 K1) as (D2 & gs2 & r2 & K2 & A2 & H2).
      * intros x Hx. apply I. now right.
      * assumption.
      * destruct Hst as (u0 & S1 & S2). exists u0. split; [|assumption]. rewrite obj_get_set.
        destruct (String.eqb_spec (sf_ident f) (sf_ident (do_pk g))) as [Eq|]; [|assumption].
        exfalso. symmetry in Eq. revert Eq. now apply (row_relation resolve s Hc (do_pk g) f (pk_row resolve s g Hc Hg) Hf).
      * rewrite Forall_forall in F2 |- *. intros f' Hin. destruct (F2 f' Hin) as (m' & Hm' & R). exists m'. split; [|exact R]. rewrite obj_get_set.
        destruct (String.eqb_spec (sf_ident f) (sf_ident f')) as [Eq|]; [|assumption].
        exfalso. apply N1. rewrite Eq. now apply (in_map fname).
      * exists D2, (gs ++ gs2), r2. split; [assumption|]. split; [assumption|]. intros rest. rewrite <- app_assoc, H. apply H2.
    + exists D1, gs, (Err e'). split; [assumption|]. split; [exact Logic.I|]. intros rest. now rewrite H.
    + exists D1, gs, Panic. split; [assumption|]. split; [exact Logic.I|]. intros rest. now rewrite H.
Qed.

(** * The object's own row *)
Notation K := (given_fits t (do_pkcol g)).

Lemma key_column : exists ck, In ck (t_cols t) /\ column_for sem g (do_pk g) ck /\ c_name ck = do_pkcol g.
Proof.
  destruct (proj1 (mi_columns _ _ _ _ _ _ _ MI) (do_pk g) (pk_row resolve s g Hc Hg)) as (ck & H1 & H2). exists ck. split; [assumption|]. split; [assumption|].
  rewrite (cf_name _ _ _ _ H2). symmetry. apply (pkcol_eq resolve s g Hg).
Qed.
Lemma columns_known n : has_column t n <-> In n cols.
Proof.
  rewrite (cols_eq resolve s g Hc Hg). split.
  - intros (c & H & <-). destruct (proj2 (mi_columns _ _ _ _ _ _ _ MI) c H) as (f & Hf & CF). rewrite (cf_name _ _ _ _ CF). now apply (in_map fname).
  - intros H. apply in_map_iff in H as (f & <- & Hf). destruct (proj1 (mi_columns _ _ _ _ _ _ _ MI) f Hf) as (c & H1 & H2). exists c. split; [assumption|]. apply (cf_name _ _ _ _ H2).
Qed.
Lemma written_or_auto c : In c (t_cols t) -> In (c_name c) icols \/ (c_auto c = true /\ word c = "INTEGER"%string).
Proof.
  intros H. destruct (proj2 (mi_columns _ _ _ _ _ _ _ MI) c H) as (f & Hf & CF). rewrite (cf_name _ _ _ _ CF), (icols_eq resolve s g Hc Hg).
  destruct (do_auto g) eqn:Ha.
  - destruct (all_cols resolve s g Hc Hg f Hf) as [->|W]; [right|left; now apply (in_map fname)].
    split; [apply (cf_auto _ _ _ _ CF); auto|]. unfold word. rewrite (cf_type _ _ _ _ CF).
    destruct (mi_integer _ _ _ _ _ _ _ MI Ha) as [-> | ->]; reflexivity.
  - left. apply (in_map fname). apply (written_in resolve s g Hc Hg). split; [assumption|]. congruence.
Qed.
Lemma written_fit (o : object) incl_pk vs : incl_pk = true \/ do_auto g = true -> object_fits json_text resolve sem valid init s g d t o ->
  non_auto_values sem g o incl_pk = Ok vs -> Forall2 (given_fits t) icols vs.
Proof.
  intros Hb OF H. apply (C31_write _ _ _ _ _ _ _ _ _ Hc Hg Hb) in H. rewrite (icols_eq resolve s g Hc Hg).
  assert (G : forall l vs, incl l (written_fields resolve s) -> Forall2 (CodegenSpec.stores sem o) l vs -> Forall2 (given_fits t) (map fname l) vs).
  { clear - OF Hc Hg. intros l vs I F. induction F as [|f v l vs Hs F IH]; [constructor|]. cbn. constructor.
    - apply (of_fields _ _ _ _ _ _ _ _ _ _ OF f v); [|intros ->|assumption].
      + apply (written_in resolve s g Hc Hg). apply I. now left.
      + intros Ha. exfalso. assert (W : In (do_pk g) (written_fields resolve s)) by (apply I; now left).
        apply (written_in resolve s g Hc Hg) in W as [_ W]. now apply W.
    - apply IH. intros x Hx. apply I. now right. }
  apply G; [apply incl_refl|assumption].
Qed.
Lemma rows_table D db : keeps D db -> model_table E K g D.
Proof.
  intros KP. eapply Forall_impl; [|exact (kp_fit _ _ _ _ _ _ _ KP (do_table g) t HT)]. cbn beta. intros r (N1 & N2 & N3). split.
  - split; [assumption|]. intros n Hn. apply N2. now apply columns_known.
  - destruct (row_field (do_pkcol g) r) as (x & Hx).
    { apply N2, columns_known. apply (pk_in resolve s g Hc Hg). }
    exists x. split; [assumption|]. rewrite Forall_forall in N3. exact (N3 (do_pkcol g, x) (field_pair _ _ _ Hx)).
Qed.

(** The key comes from the database. *)
Lemma insert_key D db vs : do_auto g = true -> keeps D db -> numbers_fit json_text fresh d db -> Forall2 (given_fits t) icols vs ->
  (exists kv db' D', insert_returning_pk json_text kw dl conv veq read E fresh db (do_table g) icols (do_pkcol g) (cd_type _ (sem (sf_ty (do_pk g)))) vs = (Ok kv, db')
     /\ keeps D' db' /\ D' = with_table D (do_table g) (D (do_table g) ++ [combine icols vs ++ [(do_pkcol g, kv)]])
     /\ K kv /\ Forall (fun r => has_key E (do_pkcol g) kv r = false) (D (do_table g)))
  \/ insert_returning_pk json_text kw dl conv veq read E fresh db (do_table g) icols (do_pkcol g) (cd_type _ (sem (sf_ty (do_pk g)))) vs = (Err (DbError 1), db).
Proof.
  intros Ha KP NF G. destruct key_column as (ck & Hck & CF & Nck).
  assert (ND := icols_nodup resolve s g Hc Hg). assert (L := Forall2_len _ _ _ G).
  assert (NP := pk_not_written resolve s g Hc Hg Ha).
  assert (CFi : call_fits json_text E dl d D (InsertOnly (do_table g) icols vs)).
  { exists t. split; [exact HT|]. split; [assumption|]. split; [assumption|]. exact written_or_auto. }
  destruct (C56_key_partial json_text kw dl conv veq read strict E fresh d D db (do_table g) t icols vs ck _ ST US KP NF
              (dp_integers _ _ _ _ _ _ _ _ _ _ _ _ _ _ DP) CFi HT Hck (cf_type _ _ _ _ CF) (mi_rowid _ _ _ _ _ _ _ MI)) as (b & r & Hb & A & O).
  cbv zeta in A, O. rewrite Nck in O. destruct O as [(kv & db' & Ec & Fk & K')|[Ec _]]; [left|right; exact Ec].
  destruct A as (t0 & extra & Ht0 & (G1 & G2 & G3) & ED).
  rewrite (StoredProofs.same_table d (do_table g) t0 t WF Ht0 HT) in *.
  assert (ER : r = combine icols vs ++ extra).
  { apply (f_equal (fun f => f (do_table g))) in ED. rewrite !with_table_same in ED. now apply app_inj_tail in ED. }
  assert (EE : exists y, extra = [(do_pkcol g, y)] /\ given_fits t (do_pkcol g) y).
  { assert (PI : In (do_pkcol g) (map fst extra)) by (apply G2; split; [exists ck; auto|assumption]).
    assert (AL : forall n, In n (map fst extra) -> n = do_pkcol g).
    { intros n Hn. apply G2 in Hn as [(c & H1 & <-) H2]. destruct (written_or_auto c H1) as [|[A _]]; [contradiction|].
      destruct (proj2 (mi_columns _ _ _ _ _ _ _ MI) c H1) as (f & Hf & CFc). destruct (proj1 (cf_auto _ _ _ _ CFc) A) as [Ef _]. subst f.
      rewrite (cf_name _ _ _ _ CFc). symmetry. apply (pkcol_eq resolve s g Hg). }
    destruct extra as [|[n y] [|[n2 y2] extra]]; [destruct PI| |].
    - rewrite (AL n (or_introl eq_refl)) in *. exists y. split; [reflexivity|]. now inversion G3 as [|? ? [Q _] _]; subst.
    - exfalso. inversion G1 as [|? ? N1 _]; subst. apply N1. cbn [fst]. rewrite (AL n), (AL n2); cbn; auto. }
  destruct EE as (y & -> & Gy).
  assert (y = kv).
  { rewrite ER, field_app in Fk. destruct (field (do_pkcol g) (combine icols vs)) eqn:Ef.
    - exfalso. apply NP. apply field_pair in Ef. now apply in_combine_l in Ef.
    - cbn in Fk. rewrite String.eqb_refl in Fk. congruence. }
  subst y. exists kv, db', (with_table D (do_table g) (D (do_table g) ++ [r])). split; [exact Ec|]. split; [exact K'|]. split; [now rewrite ER|]. split; [exact Gy|].
  apply Forall_forall. intros r0 Hr0. apply In_nth_error in Hr0 as (i & Hi).
  assert (Li : i < List.length (D (do_table g))) by (apply nth_error_Some; congruence).
  unfold has_key. destruct (field (do_pkcol g) r0) as [x|] eqn:Ex; [|reflexivity].
  assert (NEQ : ~ equal E x kv).
  { apply (lg_keys _ _ _ (kp_legal _ _ _ _ _ _ _ K') (do_table g) t ck i (List.length (D (do_table g))) r0 r x kv HT Hck);
      try rewrite Nck; try assumption.
    - left. now apply (cf_pk _ _ _ _ CF).
    - rewrite with_table_same. now rewrite nth_error_app1.
    - rewrite with_table_same, nth_error_app2, Nat.sub_diag; [reflexivity|lia]. }
  unfold equal in NEQ. destruct (compare3 E CEq x kv) as [[|]|]; congruence.
Qed.

Lemma returning_works gen cs vs D kv rest : Forall (fun c => identifier c = true) cs -> List.length vs = List.length cs ->
  field (do_pkcol g) (combine cs vs ++ gen D (do_table g) cs) = Some kv ->
  conn_insert_returning_pk dl kw Sqlite E gen (do_table g) cs (do_pkcol g) vs {| w_db := D; w_fate := Works :: Works :: rest |}
  = (Ok kv, {| w_db := inserted gen D (do_table g) cs vs; w_fate := rest |}).
Proof.
  intros Ic L F. unfold conn_insert_returning_pk.
  destruct (StmtMain.insert_correct dl kw KW Sqlite (do_table g) cs (ident_of _ t HT) Ic I) as (q & st & Es & Ep & EE).
  change (insert_returning_sql Sqlite kw (do_table g) cs (do_pkcol g)) with (insert_sql Sqlite kw (do_table g) cs). rewrite Es.
  rewrite (run_stmt_fate dl E gen q st vs {| w_db := D; w_fate := Works :: Works :: rest |} _ _ Ep (EE E D (gen D) vs L)). cbn [next_fate w_fate after tl w_db].
  rewrite with_table_same, last_last, F. reflexivity.
Qed.
Lemma returning_refused gen cs vs D rest : Forall (fun c => identifier c = true) cs -> List.length vs = List.length cs ->
  conn_insert_returning_pk dl kw Sqlite E gen (do_table g) cs (do_pkcol g) vs {| w_db := D; w_fate := Refused :: rest |}
  = (Err (DbError 0), {| w_db := D; w_fate := rest |}).
Proof.
  intros Ic L. unfold conn_insert_returning_pk.
  destruct (StmtMain.insert_correct dl kw KW Sqlite (do_table g) cs (ident_of _ t HT) Ic I) as (q & st & Es & Ep & EE).
  change (insert_returning_sql Sqlite kw (do_table g) cs (do_pkcol g)) with (insert_sql Sqlite kw (do_table g) cs). rewrite Es.
  rewrite (run_stmt_fate dl E gen q st vs {| w_db := D; w_fate := Refused :: rest |} _ _ Ep (EE E D (gen D) vs L)). reflexivity.
Qed.

(** What is known when the own row was saved. *)
Definition row_done (D : Sql.db) (o o1 : object) (kv0 : SqlVal) : Prop :=
  (o1 = o /\ has_own_key valid g o)
  \/ exists u u', do_auto g = true /\ obj_get o (sf_ident (do_pk g)) = Some (FV u) /\ valid u = false
       /\ o1 = obj_set o (sf_ident (do_pk g)) (FV u') /\ valid u' = true /\ cd_to _ (sem (sf_ty (do_pk g))) u' = Ok kv0 /\ K kv0
       /\ makes_key E K sem valid init g (numbered g kv0) D u.

Lemma insert_init_sim D db (o : object) u ovs : do_auto g = true -> obj_get o (sf_ident (do_pk g)) = Some (FV u) -> valid u = false -> takes_key json_text sem valid init g t u ->
  keeps D db -> numbers_fit json_text fresh d db -> (forall vs, ovs = Ok vs -> Forall2 (given_fits t) icols vs) ->
  exists kv0, sim3 (insert_and_init_on M sem init g icols ovs o u db) D (insert_and_init_on (C (numbered g kv0)) sem init g icols ovs o u)
    /\ forall x o1 db1, insert_and_init_on M sem init g icols ovs o u db = (Ok x, o1, db1) -> row_done D o o1 kv0.
Proof.
  intros Ha Hu Hv TK KP NF G. unfold insert_and_init_on. destruct ovs as [vs|e|].
  - specialize (G vs eq_refl). assert (L := Forall2_len _ _ _ G). assert (NP := pk_not_written resolve s g Hc Hg Ha).
    assert (IC := icols_ok resolve s g dl Sqlite Hc Hg NO).
    cbn [on_insert_returning_pk sqlite_methods conn_methods].
    destruct (insert_key D db vs Ha KP NF G) as [(kv & db' & D' & Ec & K' & ED & Kk & Fr)|Ec]; rewrite Ec.
    + exists kv. destruct (TK kv Kk) as (u' & Ei & Hv' & Et). rewrite Ei.
      assert (GN : numbered g kv D (do_table g) icols = [(do_pkcol g, kv)]).
      { unfold numbered. rewrite String.eqb_refl. destruct (existsb (String.eqb (do_pkcol g)) icols) eqn:Ex; [|reflexivity].
        apply existsb_name in Ex. contradiction. }
      assert (FE : field (do_pkcol g) (combine icols vs ++ numbered g kv D (do_table g) icols) = Some kv).
      { rewrite GN, field_app. destruct (field (do_pkcol g) (combine icols vs)) eqn:Ef.
        - exfalso. apply NP. apply field_pair in Ef. now apply in_combine_l in Ef.
        - cbn. now rewrite String.eqb_refl. }
      split.
      * exists (inserted (numbered g kv) D (do_table g) icols vs), [Works; Works], (Ok tt). cbn [fst snd]. split.
        -- unfold inserted. rewrite GN, <- ED. assumption.
        -- split; [reflexivity|]. intros rest. cbn [app]. rewrite (returning_works _ icols vs D kv rest IC L FE), Ei. reflexivity.
      * intros x o1 db1 [= <- <- <-]. right. exists u, u'. repeat (split; [assumption||reflexivity|]).
        exists kv. rewrite GN. cbn. rewrite String.eqb_refl. split; [reflexivity|]. split; [assumption|]. split; [assumption|]. exists u'. auto.
    + exists VNull. split; [|discriminate]. exists D, [Refused], (Err (DbError 0)). split; [assumption|]. split; [exact I|]. intros rest.
      cbn [app]. rewrite (returning_refused _ icols vs D rest IC L). reflexivity.
  - exists VNull. split; [apply sim_same; [assumption|reflexivity]|discriminate].
  - exists VNull. split; [apply sim_same; [assumption|reflexivity]|discriminate].
Qed.

Lemma own_row_sim D db (o : object) : keeps D db -> numbers_fit json_text fresh d db -> object_fits json_text resolve sem valid init s g d t o ->
  exists kv0, sim3 (save_row_on M sem valid init g o db) D (save_row_on (C (numbered g kv0)) sem valid init g o)
    /\ forall x o1 db1, save_row_on M sem valid init g o db = (Ok x, o1, db1) -> row_done D o o1 kv0.
Proof.
  intros KP NF OF. unfold save_row_on, obj_key. destruct (obj_get o (sf_ident (do_pk g))) as [[u|m]|] eqn:Hu;
    [|exists VNull; split; [apply sim_same; [assumption|reflexivity]|discriminate]..].
  destruct (do_auto g) eqn:Ha; cbn [andb].
  - destruct (Nat.eqb_spec (List.length (dr_columns (do_result g))) 1) as [L1|L1].
    + destruct (valid u) eqn:Hv.
      * exists VNull. split; [apply sim_same; [assumption|reflexivity]|]. intros x o1 db1 [= <- <- <-]. left. split; [reflexivity|]. intros _. split; [assumption|]. eauto.
      * assert (EI := single resolve s g Hc Hg Ha L1). rewrite <- EI. apply insert_init_sim; auto; [exact (of_key _ _ _ _ _ _ _ _ _ _ OF u Ha Hu Hv)|]. intros vs [= <-]. rewrite EI. constructor.
    + destruct (valid u) eqn:Hv.
      * destruct (field_sql sem o (do_pk g)) as [kv|e|] eqn:Ek; [|exists VNull; split; [apply sim_same; [assumption|reflexivity]|discriminate]..].
        destruct (non_auto_values sem g o false) as [vs|e|] eqn:Ev; [|exists VNull; split; [apply sim_same; [assumption|reflexivity]|discriminate]..].
        exists VNull. assert (G := written_fit o false vs (or_intror Ha) OF Ev). assert (L := Forall2_len _ _ _ G).
        assert (OK : has_own_key valid g o) by (intros _; split; [assumption|]; eauto).
        assert (GK : K kv).
        { apply field_sql_ok in Ek. rewrite (pkcol_eq resolve s g Hg). apply (of_fields _ _ _ _ _ _ _ _ _ _ OF (do_pk g)); auto. apply (pk_row resolve s g Hc Hg). }
        assert (NEi := not_single resolve s g Hc Hg Ha L1).
        assert (HS : sim (on_update M (do_table g) (do_pkcol g) kv icols vs db) D (on_update (C (numbered g VNull)) (do_table g) (do_pkcol g) kv icols vs)).
        { destruct (update_call json_text E veq conv read strict fresh kw dl EO CS SO KW d WF SF RK D db (do_table g) (do_pkcol g) kv icols vs KP) with (z := 0%Z) as (D' & A & O).
          { exists t. split; [exact HT|]. split; [assumption|]. split; [apply (icols_nodup resolve s g Hc Hg)|]. split; [assumption|]. split.
            - apply columns_known, (pk_in resolve s g Hc Hg).
            - destruct GK as (c & _ & _ & ty & _ & _ & _ & N & _). exact N. }
          cbn [asks] in A. subst D'. eapply sim_run; [exact KP|exact O|intros k; reflexivity|]. intros fate. cbn [on_update conn_methods].
          apply (update_effect dl kw Sqlite E _ KW EO); auto.
          - exact (ident_of _ t HT).
          - exact (pk_ident g dl Sqlite NO).
          - exact (icols_ok resolve s g dl Sqlite Hc Hg NO).
          - exact I.
          - cbn [w_db]. eapply Forall_impl; [|exact (rows_table D db KP)]. cbn beta. intros r [[N1 N2] _]. split; [assumption|].
            intros n [<-|Hn]; apply N2; [apply (pk_in resolve s g Hc Hg)|]. now apply (icols_incl resolve s g Hc Hg). }
        destruct HS as (D' & fs & r' & K' & A & H). destruct (on_update M (do_table g) (do_pkcol g) kv icols vs db) as [r db'] eqn:Eu. cbn [fst snd] in K', A.
        split.
        -- exists D', fs, r'. split; [assumption|]. split; [assumption|]. intros rest. now rewrite H.
        -- intros x o1 db1 [= _ <- _]. left. auto.
      * apply insert_init_sim; auto; [exact (of_key _ _ _ _ _ _ _ _ _ _ OF u Ha Hu Hv)|]. intros vs Ev. exact (written_fit o true vs (or_introl eq_refl) OF Ev).
  - destruct (non_auto_values sem g o true) as [vs|e|] eqn:Ev; [|exists VNull; split; [apply sim_same; [assumption|reflexivity]|discriminate]..].
    exists VNull. assert (G := written_fit o true vs (or_introl eq_refl) OF Ev). rewrite (icols_cols resolve s g Hc Hg Ha) in G. assert (L := Forall2_len _ _ _ G).
    assert (OK : has_own_key valid g o) by (intros H; congruence).
    assert (HS : sim (on_insert_or_replace M (do_table g) cols (do_pkcol g) vs db) D (on_insert_or_replace (C (numbered g VNull)) (do_table g) cols (do_pkcol g) vs)).
    { destruct key_column as (ck & Hck & CF & Nck).
      destruct (upsert_call json_text E veq conv read strict fresh kw dl EO CS SO KW EX d WF SF RK D db (do_table g) cols (do_pkcol g) vs KP) with (z := 0%Z) as (D' & A & O).
      { exists t. split; [exact HT|]. split; [apply (cols_nodup resolve s g Hc Hg)|]. split; [assumption|]. split.
        - intros c Hin. apply columns_known. now exists c.
        - split; [|exact (proj1 (nm_not_excluded _ _ _ NO))]. exists ck. split; [assumption|]. split; [assumption|]. left. now apply (cf_pk _ _ _ _ CF). }
      destruct A as (kv & Fk & ->).
      apply (sim_run (InsertOrReplace (do_table g) cols (do_pkcol g) vs) D _
               (if existsb (has_key E (do_pkcol g) kv) (D (do_table g))
                then (if Nat.ltb 1 (List.length cols)
                      then with_table D (do_table g) (rewrite_rows (has_key E (do_pkcol g) kv) (assign (combine cols vs)) (D (do_table g))) else D)
                else inserted (numbered g VNull) D (do_table g) cols vs) db (do_table g) _ KP O).
      2:{ intros fate. cbn [on_insert_or_replace conn_methods]. apply (upsert_effect dl kw Sqlite E (numbered g VNull) KW (do_table g) (do_pkcol g) cols vs kv {| w_db := D; w_fate := fate |} EX); auto.
          - exact (proj1 (nm_not_excluded _ _ _ NO)).
          - exact (ident_of _ t HT).
          - exact (pk_ident g dl Sqlite NO).
          - exact (nm_cols _ _ _ NO).
          - exact (cols_nodup resolve s g Hc Hg).
          - exact (pk_in resolve s g Hc Hg).
          - cbn [w_db]. exact (table_incl g E K D (rows_table D db KP)). }
      cbn [w_db]. intros n. destruct (existsb (has_key E (do_pkcol g) kv) (D (do_table g))).
      - destruct (Nat.ltb 1 (List.length cols)); [reflexivity|]. unfold with_table. destruct (String.eqb_spec n (do_table g)) as [->|]; reflexivity.
      - unfold inserted, numbered. rewrite String.eqb_refl. cbn [andb].
        assert (Xp : existsb (String.eqb (do_pkcol g)) cols = true) by (apply existsb_name, (pk_in resolve s g Hc Hg)). rewrite Xp. cbn [negb]. now rewrite app_nil_r. }
    destruct HS as (D' & fs & r' & K' & A & H). destruct (on_insert_or_replace M (do_table g) cols (do_pkcol g) vs db) as [r db'] eqn:Eu. cbn [fst snd] in K', A.
    split.
    + exists D', fs, r'. split; [assumption|]. split; [assumption|]. intros rest. now rewrite H.
    + intros x o1 db1 [= _ <- _]. left. auto.
Qed.

(** * The whole save *)
Lemma manys_key {W} (Mt : methods W) : forall fs (o : object) w r o' w',
  ~ In (sf_ident (do_pk g)) (map fst fs) -> save_manys_on Mt sem g fs o w = (r, o', w') ->
  obj_get o' (sf_ident (do_pk g)) = obj_get o (sf_ident (do_pk g)).
Proof.
  induction fs as [|[f n] fs IH]; intros o w r o' w' N H; cbn [save_manys_on] in H; [now inversion H|].
  destruct (obj_get o f) as [[u|m]|]; try now inversion H. destruct (field_sql sem o (do_pk g)); try now inversion H.
  assert (P : forall m', obj_get (obj_set o f (FM m')) (sf_ident (do_pk g)) = obj_get o (sf_ident (do_pk g))).
  { intros m'. rewrite obj_get_set. destruct (String.eqb_spec f (sf_ident (do_pk g))) as [Eq|]; [|reflexivity]. exfalso. apply N. now left. }
  destruct (many_save_on Mt _ w) as [[[u|e|] m'] w1]; [|inversion H; subst; apply P..].
  rewrite (IH _ _ _ _ _ (fun Hin => N (or_intror Hin)) H). apply P.
Qed.
Lemma manys_unsaved {W W'} (Mt : methods W) (Mt' : methods W') fs (o : object) : (forall kv, field_sql sem o (do_pk g) <> Ok kv) ->
  exists r, (forall w, save_manys_on Mt sem g fs o w = (r, o, w)) /\ (forall w, save_manys_on Mt' sem g fs o w = (r, o, w)).
Proof.
  intros N. destruct fs as [|[f n] fs]; [exists (Ok tt); auto|]. cbn [save_manys_on].
  destruct (obj_get o f) as [[u|m]|]; [exists Panic; auto| |exists Panic; auto].
  destruct (field_sql sem o (do_pk g)) as [kv|e|]; [now destruct (N kv)|exists (Err e); auto|exists Panic; auto].
Qed.
Lemma key_apart : ~ In (sf_ident (do_pk g)) (map fst (do_save_many g)).
Proof.
  rewrite (relations_eq resolve s g Hg), map_map. cbn [fst]. intros H. apply in_map_iff in H as (f & Ef & Hf).
  symmetry in Ef. revert Ef. apply (row_relation resolve s Hc (do_pk g) f (pk_row resolve s g Hc Hg) Hf).
Qed.

Lemma row_ready D db (o o1 : object) kv0 kv : keeps D db -> object_fits json_text resolve sem valid init s g d t o -> row_done D o o1 kv0 ->
  CodegenSpec.stores sem o1 (do_pk g) kv ->
  K kv /\ Forall (relation_ready kv o1) (relation_fields resolve s) /\ ready resolve sem valid init s g Sqlite E (numbered g kv0) K D o kv.
Proof.
  intros KP OF RD Hst. assert (KK : key_kind K sem valid g o).
    { intros u k Hu Hv Ht. rewrite (pkcol_eq resolve s g Hg). apply (of_fields _ _ _ _ _ _ _ _ _ _ OF (do_pk g)).
      - apply (pk_row resolve s g Hc Hg).
      - intros _ Ha. split; [assumption|]. exists u. split; [assumption|]. destruct Hv as [Hv|Hv]; [congruence|assumption].
      - exists u. auto. }
    assert (RT : forall f, In f (relation_fields resolve s) -> relation_table D (relation_name (do_table g) f)).
    { intros f Hf. destruct (mi_relations _ _ _ _ _ _ _ MI f Hf) as (rt & Hrt & RF & _).
      eapply Forall_impl; [|exact (kp_fit _ _ _ _ _ _ _ KP _ rt Hrt)]. cbn beta. intros r (_ & N2 & _) n [<-|[<-|[]]]; apply N2, RF; auto. }
    destruct RD as [[-> OK]|(u & u' & Ha & Hu & Hv & Eo1 & Hv' & Hto & Kk & MK)].
    - assert (Kk : K kv) by (rewrite (pkcol_eq resolve s g Hg); apply (of_fields _ _ _ _ _ _ _ _ _ _ OF (do_pk g)); auto; apply (pk_row resolve s g Hc Hg)).
      assert (OW : forall f, In f (relation_fields resolve s) -> relation_ready kv o f).
      { intros f Hf. destruct (of_relations _ _ _ _ _ _ _ _ _ _ OF f Hf) as (m & Hm & Ow & Fn & Fr). exists m. split; [assumption|]. split; [|auto].
        destruct Ow as [Ow|[_ (k & Hk & Ow & Tb)]]; [now left|right]. rewrite (stores_fun sem o _ _ _ Hst Hk). auto. }
      split; [assumption|]. split; [now apply Forall_forall|]. constructor.
      + exact (rows_table D db KP).
      + assumption.
      + intros u Hu Ha Hv. destruct (OK Ha) as (_ & u2 & Hu2 & Hv2). rewrite Hu in Hu2. injection Hu2 as <-. congruence.
      + intros f Hf. destruct (OW f Hf) as (m & Hm & Ow & _). exists m. split; [assumption|]. split; [assumption|]. split; [exact I|]. now apply RT.
    - assert (kv = kv0).
      { destruct Hst as (u2 & H1 & H2). rewrite Eo1, obj_get_set, String.eqb_refl, Hu in H1. injection H1 as <-. congruence. }
      subst kv. assert (NK : ~ has_own_key valid g o).
      { intros OK. destruct (OK Ha) as (_ & u2 & Hu2 & Hv2). rewrite Hu in Hu2. injection Hu2 as <-. congruence. }
      split; [assumption|]. split.
      + apply Forall_forall. intros f Hf. destruct (of_relations _ _ _ _ _ _ _ _ _ _ OF f Hf) as (m & Hm & Ow & Fn & Fr). exists m. split.
        * rewrite Eo1, obj_get_set. destruct (String.eqb_spec (sf_ident (do_pk g)) (sf_ident f)) as [Eq|]; [|assumption].
          exfalso. revert Eq. apply (row_relation resolve s Hc (do_pk g) f (pk_row resolve s g Hc Hg) Hf).
        * split; [|auto]. destruct Ow as [Ow|[OK _]]; [now left|contradiction].
      + constructor; [exact (rows_table D db KP)|assumption| |].
        * intros u2 Hu2 _ _. rewrite Hu in Hu2. injection Hu2 as <-. assumption.
        * intros f Hf. destruct (of_relations _ _ _ _ _ _ _ _ _ _ OF f Hf) as (m & Hm & Ow & _). exists m. split; [assumption|]. split.
          -- destruct Ow as [Ow|[OK _]]; [now left|contradiction].
          -- split; [exact I|]. now apply RT.
Qed.

Lemma save_sim D db (o : object) : keeps D db -> numbers_fit json_text fresh d db -> object_fits json_text resolve sem valid init s g d t o ->
  exists kv0, sim3 (save_on M sem valid init g o db) D (save_on (C (numbered g kv0)) sem valid init g o)
    /\ forall x o' db', save_on M sem valid init g o db = (Ok x, o', db') ->
       forall kv, CodegenSpec.stores sem o' (do_pk g) kv -> K kv /\ ready resolve sem valid init s g Sqlite E (numbered g kv0) K D o kv.
Proof.
  intros KP NF OF. destruct (own_row_sim D db o KP NF OF) as (kv0 & (D1 & fs & r' & K1 & A & H) & RD). exists kv0. unfold save_on.
  destruct (save_row_on M sem valid init g o db) as [[r o1] db1] eqn:Er. cbn [fst snd] in K1, A, H.
  destruct r as [x|e|], r' as [x'|e'|]; try contradiction.
  2:{ split; [|discriminate]. exists D1, fs, (Err e'). split; [assumption|]. split; [exact I|]. intros rest. now rewrite H. }
  2:{ split; [|discriminate]. exists D1, fs, Panic. split; [assumption|]. split; [exact I|]. intros rest. now rewrite H. }
  specialize (RD x o1 db1 eq_refl).
  assert (KO : forall kv, CodegenSpec.stores sem o1 (do_pk g) kv -> K kv /\ Forall (relation_ready kv o1) (relation_fields resolve s)
                 /\ ready resolve sem valid init s g Sqlite E (numbered g kv0) K D o kv) by (intros kv Hst; now apply (row_ready D db o o1 kv0 kv)).
  split.
  - destruct (field_sql sem o1 (do_pk g)) as [kv|e|] eqn:Ek.
    + apply field_sql_ok in Ek. destruct (KO kv Ek) as (Kk & RR & _).
      destruct (manys_sim kv0 kv Kk (relation_fields resolve s) o1 D1 db1 K1 (incl_refl _) (relations_nodup resolve s Hc) Ek RR) as (D2 & fs2 & r2 & K2 & A2 & H2).
      rewrite <- (relations_eq resolve s g Hg) in K2, A2, H2. exists D2, (fs ++ fs2), r2. split; [assumption|]. split; [assumption|].
      intros rest. rewrite <- app_assoc, H. apply H2.
    + destruct (manys_unsaved M (C (numbered g kv0)) (do_save_many g) o1) as (r & Q1 & Q2); [congruence|]. rewrite Q1.
      exists D1, fs, r. split; [assumption|]. split; [destruct r; cbn; auto|]. intros rest. now rewrite H.
    + destruct (manys_unsaved M (C (numbered g kv0)) (do_save_many g) o1) as (r & Q1 & Q2); [congruence|]. rewrite Q1.
      exists D1, fs, r. split; [assumption|]. split; [destruct r; cbn; auto|]. intros rest. now rewrite H.
  - intros x2 o' db' Hs kv (u & Hu & Ht). rewrite (manys_key M _ _ _ _ _ _ key_apart Hs) in Hu.
    destruct (KO kv) as (Kk & _ & RDY); [exists u; auto|]. auto.
Qed.

Lemma is_setting kv0 : setting resolve s g dl kw Sqlite E (numbered g kv0) K.
Proof. constructor; try assumption. apply numbered_fills. Qed.

(** * Getting *)
Notation tcols := (map (fun c => (fst c, cd_type _ (sem (snd c)))) (dr_columns (do_result g))).
Lemma kinds_known : Forall2 (kind_is t) cols (map snd tcols).
Proof.
  rewrite map_map. cbn [snd]. destruct (C31_columns _ _ _ Hc Hg) as (-> & _). rewrite !map_map. cbn [fst snd column_of].
  assert (G : forall l, incl l (row_fields resolve s) -> Forall2 (kind_is t) (map (fun f => strip_raw (sf_ident f)) l) (map (fun f => cd_type U (sem (sf_ty f))) l)).
  { induction l as [|f l IH]; intros I; [constructor|]. cbn. constructor; [|apply IH; intros x Hx; apply I; now right].
    destruct (proj1 (mi_columns _ _ _ _ _ _ _ MI) f (I f (or_introl eq_refl))) as (c & H1 & H2). exists c. split; [assumption|].
    split; [apply (cf_name _ _ _ _ H2)|apply (cf_type _ _ _ _ H2)]. }
  apply G, incl_refl.
Qed.
Lemma query_same D db id q : keeps D db -> K id ->
  let x := set_limit 1 (set_filter (BEq (do_pkcol g) (EVal id)) (q_new (do_table g))) in
  sqlite_query_answers json_text kw dl E tcols x db q
  <-> query_answers dl kw Sqlite E cols x {| w_db := D; w_fate := [] |} q {| w_db := D; w_fate := [] |}.
Proof.
  intros KP Kid x. assert (EC : map fst tcols = cols) by now rewrite map_map.
  assert (Q : query_names_ok dl x cols).
  { split; [exact (nm_table _ _ _ NO)|]. split; [intros Hn; pose proof (pk_in resolve s g Hc Hg) as Hp; rewrite Hn in Hp; contradiction|].
    split; [exact (nm_cols _ _ _ NO)|]. split; [constructor|]. split; [exact I|]. split; [|exact I]. exact (nm_pk _ _ _ NO). }
  assert (FO : filter_ok E D (q_table x) (q_filter x)).
  { apply eq_ok. eapply Forall_impl; [|exact (rows_table D db KP)]. cbn beta. intros y [[_ N2] _]. apply N2, (pk_in resolve s g Hc Hg). }
  destruct (load_correct json_text E veq CS kw dl conv strict d D db t x (Some 1%Z) cols (map snd tcols) EO KW WF KP HT kinds_known Q) as (t0 & sel & Es & Ep & M1 & M2);
    [cbn; lia|exact I|assumption|intros Hx; discriminate Hx|].
  pose proof (get_query_ok resolve s g dl kw Sqlite E K Hc Hg KW EO NO id {| w_db := D; w_fate := [] |} Kid (rows_table D db KP) q {| w_db := D; w_fate := [] |}) as GQ.
  cbv zeta in GQ. fold x in GQ. rewrite GQ. clear GQ. cbn [next_fate w_fate w_db after tl].
  assert (El : load_sql Sqlite kw cols x = Ok (t0, query_values x)) by exact Es.
  unfold sqlite_query_answers. rewrite EC, El, Ep.
  assert (W : exists ls, collect_all sqlite_write (query_values x) = Ok ls).
  { apply collect_writes. assert (V : Forall (fun v => ~ is_custom v) [id]).
    { repeat constructor. destruct Kid as (c & _ & _ & ty & _ & _ & _ & N & _). exact N. }
    clear - V. cbn. destruct id; try exact V; constructor. }
  destruct W as (ls & ->). split.
  - intros [(out & S1 & ->)|[-> N]]; (split; [reflexivity|]).
    + destruct (M1 out S1) as (rs & -> & R). left. eauto.
    + right. split; [reflexivity|]. intros rs R. destruct (M2 rs R) as (out & S1 & _). exact (N out S1).
  - intros [_ [(rs & -> & R)|[-> N]]].
    + left. destruct (M2 rs R) as (out & S1 & <-). eauto.
    + right. split; [reflexivity|]. intros out S1. destruct (M1 out S1) as (rs & _ & R). exact (N rs R).
Qed.
Lemma query_stays D q id w2 : let x := set_limit 1 (set_filter (BEq (do_pkcol g) (EVal id)) (q_new (do_table g))) in
  query_answers dl kw Sqlite E cols x {| w_db := D; w_fate := [] |} q w2 -> w2 = {| w_db := D; w_fate := [] |}.
Proof. intros x. unfold query_answers. destruct (load_sql Sqlite kw cols x) as [[q0 vs]|e|]; now intros [A B]. Qed.
Lemma try_get_same D db id r : keeps D db -> K id ->
  sqlite_try_get_answers (X := X) json_text kw dl E sem g id db r
  <-> exists w2, try_get_answers sem g dl kw Sqlite E id {| w_db := D; w_fate := [] |} r w2.
Proof.
  intros KP Kid. unfold sqlite_try_get_answers, try_get_answers, objects_answer. split.
  - intros (q & Hq & ->). exists {| w_db := D; w_fate := [] |}. eexists. split; [|reflexivity]. exists q. split; [|reflexivity]. now apply (query_same D db id q KP Kid).
  - intros (w2 & l & (q & Hq & ->) & ->). exists q. split; [|reflexivity]. apply (query_same D db id q KP Kid).
    pose proof (query_stays D q id w2 Hq) as Ew. cbv zeta in *. now rewrite Ew in Hq.
Qed.
Lemma get_same D db id r : keeps D db -> K id ->
  sqlite_get_answers (X := X) json_text kw dl E sem g id db r
  <-> exists w2, get_answers sem g dl kw Sqlite E id {| w_db := D; w_fate := [] |} r w2.
Proof.
  intros KP Kid. unfold sqlite_get_answers, get_answers. split.
  - intros (x & Hx & ->). apply (try_get_same D db id x KP Kid) in Hx as (w2 & Hx). exists w2, x. auto.
  - intros (w2 & x & Hx & ->). exists x. split; [|reflexivity]. apply (try_get_same D db id x KP Kid). eauto.
Qed.

(** * Deleting, and being refused *)
Lemma delete_object_sim D db (o : object) kv gen : keeps D db -> CodegenSpec.stores sem o (do_pk g) kv -> K kv ->
  sim (delete_on M sem g o db) D (delete_on (C gen) sem g o)
  /\ (forall e db', delete_on M sem g o db = (Err e, db') -> db' = db) /\ fst (delete_on M sem g o db) <> Panic.
Proof.
  intros KP Hst Kk. assert (HM := rows_table D db KP).
  assert (FO : filter_ok E D (do_table g) (Some (BEq (do_pkcol g) (EVal kv)))).
  { apply eq_ok. eapply Forall_impl; [|exact HM]. cbn beta. intros y [[_ N2] _]. apply N2, (pk_in resolve s g Hc Hg). }
  destruct (delete_call json_text E veq conv read strict fresh kw dl EO CS SO KW d WF SF RK D db (do_table g) (BEq (do_pkcol g) (EVal kv)) KP) with (z := 0%Z) as (D' & A & O).
  { exists t. split; [exact HT|]. split; [exact I|]. split; [split; [exact (nm_pk _ _ _ NO)|exact I]|]. split; [assumption|].
    destruct Kk as (c & _ & _ & ty & _ & _ & _ & N & _). destruct kv; repeat constructor; exact N. }
  assert (Efs : field_sql sem o (do_pk g) = Ok kv) by now apply field_sql_ok.
  unfold delete_on. rewrite Efs. cbn [on_delete_where sqlite_methods conn_methods]. cbn [asks] in A. subst D'. split.
  - eapply sim_run; [exact KP|exact O|intros k; reflexivity|]. intros fate.
    apply (delete_where_effect dl kw Sqlite E gen KW EO (do_table g) (BEq (do_pkcol g) (EVal kv))); cbn [w_db]; try exact I;
      [exact (nm_table _ _ _ NO)|split; [exact (nm_pk _ _ _ NO)|exact I]|assumption].
  - unfold sqlite_run. destruct O as [(db' & -> & _)|[-> _]]; split; cbn; congruence.
Qed.
Lemma own_key (o : object) u : obj_key g o = Some u -> obj_get o (sf_ident (do_pk g)) = Some (FV u).
Proof. unfold obj_key. destruct (obj_get o (sf_ident (do_pk g))) as [[v|m]|]; congruence. Qed.
Lemma row_refused D db (o o1 : object) e db1 : keeps D db -> numbers_fit json_text fresh d db -> object_fits json_text resolve sem valid init s g d t o ->
  save_row_on M sem valid init g o db = (Err e, o1, db1) -> o1 = o /\ db1 = db.
Proof.
  intros KP NF OF. assert (R : forall c r db2, sqlite_run kw dl conv veq read E fresh c db = (Err r, db2) -> db2 = db).
  { intros c r db2. unfold sqlite_run. destruct (data_call db c); congruence. }
  assert (II : forall u ovs, obj_key g o = Some u -> do_auto g = true -> valid u = false -> (forall vs, ovs = Ok vs -> Forall2 (given_fits t) icols vs) ->
            insert_and_init_on M sem init g icols ovs o u db = (Err e, o1, db1) -> o1 = o /\ db1 = db).
  { intros u ovs Hu Ha Hv G. unfold insert_and_init_on. assert (TK : takes_key json_text sem valid init g t u) by (apply (of_key _ _ _ _ _ _ _ _ _ _ OF); auto; now apply own_key). destruct ovs as [vs|e0|]; [|intros [= <- <- <-]; auto|discriminate].
    cbn [on_insert_returning_pk sqlite_methods].
    destruct (insert_key D db vs Ha KP NF (G vs eq_refl)) as [(kv & db' & D' & Ec & K' & ED & Kk & Fr)|Ec]; rewrite Ec.
    - destruct (TK kv Kk) as (u' & Ei & _). rewrite Ei. discriminate.
    - intros [= <- <- <-]. auto. }
  unfold save_row_on. destruct (obj_key g o) as [u|] eqn:Hu; [|discriminate].
  destruct (do_auto g && Nat.eqb (List.length (dr_columns (do_result g))) 1) eqn:E1.
  - apply andb_prop in E1 as [Ha E1]. destruct (valid u) eqn:Hv; [discriminate|].
    assert (En : icols = []) by (apply (single resolve s g Hc Hg Ha); now apply Nat.eqb_eq). rewrite <- En. apply (II u (Ok [])); auto. intros vs [= <-]. rewrite En. constructor.
  - destruct (do_auto g) eqn:Ha.
    + destruct (valid u) eqn:Hv.
      * destruct (field_sql sem o (do_pk g)) as [kv|e0|]; [|intros [= <- <- <-]; auto|destruct (non_auto_values sem g o false); discriminate].
        destruct (non_auto_values sem g o false) as [vs|e0|]; [|intros [= <- <- <-]; auto|discriminate].
        cbn [on_update sqlite_methods]. destruct (sqlite_run _ _ _ _ _ _ _ _ _) as [r w'] eqn:Er. intros [= -> <- <-]. split; [reflexivity|now apply R in Er].
      * apply II; auto. intros vs Hvs. apply (written_fit o true); auto.
    + destruct (non_auto_values sem g o true) as [vs|e0|]; [|intros [= <- <- <-]; auto|discriminate].
      cbn [on_insert_or_replace sqlite_methods]. destruct (sqlite_run _ _ _ _ _ _ _ _ _) as [r w'] eqn:Er. intros [= -> <- <-]. split; [reflexivity|now apply R in Er].
Qed.
End Sim.
