(** Proofs about objects through migrations (C63). *)
From Verif Require Import Base SqlVal Adb AdbSpec AdbProofs Conv ConvProofs Sql SqlStmt Query QuerySpec Stmt StmtSpec Literal LiteralSpec Ddl DdlSpec
  SqliteSem SqliteData Backend BackendSpec Turso SqliteKey KeyCall MigrateSpec DataCalls StoredSpec StoredRel StoredProofs Conn ConnProofs Many ManyProofs Codegen CodegenSpec CodegenProofs Obj ObjSpec ObjProofs
  Props_Query Props_Models Props_Objects Props_Schema Props_TursoScript Props_Migrations Props_Migrate Props_Stored Saved SavedSpec SavedProofs
  Props_Saved LoadedSpec HistorySpec HistoryProofs Props_History Chain Deploy DeploySpec CarriedSpec CarriedProofs EvolvedSpec.

Lemma widened_same ty v : of_kind v ty -> widened ty v = v.
Proof. intros [-> | H]; [reflexivity|]. destruct v; try reflexivity. cbn in H. injection H as <-. reflexivity. Qed.
Lemma field_in r n : In n (map fst r) -> exists v, field n r = Some v.
Proof.
  unfold field. induction r as [|[k x] r IH]; cbn; [intros []|]. intros H. destruct (String.eqb k n) eqn:Ek; [eauto|].
  destruct H as [->|H]; [now rewrite String.eqb_refl in Ek|]. auto.
Qed.

Section Build.
Context {U M : Type}.
Lemma build (l : list sfield) (Q : sfield -> @fval U M -> Prop) : NoDup (map sf_ident l) -> (forall f, In f l -> exists x, Q f x) ->
  exists o : @object U M, forall f, In f l -> exists x, obj_get o (sf_ident f) = Some x /\ Q f x.
Proof.
  induction l as [|a l IH]; intros ND H; [exists []; intros f []|]. inversion ND as [|? ? N1 N2]; subst.
  destruct IH as (o & Ho); [assumption|intros f Hf; apply H; now right|]. destruct (H a (or_introl eq_refl)) as (x & Hx).
  exists ((sf_ident a, x) :: o). intros f [<-|Hf]; unfold obj_get; cbn [find fst]; [rewrite String.eqb_refl; eauto|].
  destruct (String.eqb (sf_ident a) (sf_ident f)) eqn:Ee; [|now apply Ho].
  apply String.eqb_eq in Ee. exfalso. apply N1. rewrite Ee. now apply in_map.
Qed.
End Build.

Section Evolved.
Context {U X : Type}.
Variable json_text : string -> option string.
Variable resolve : bool -> list string -> string -> option string.
Variable sem : ty -> codec U.
Variable kw : string -> bool.
Variable dl : dialect.
Variable conv : bool -> list string -> lvalue -> option lvalue.
Variable veq : lvalue -> lvalue -> bool.
Variable read : bool -> string -> f64.
Variable strict : bool.
Variable E : engine.
Variable d d2 : ADB.
Variable m m2 : model.
Notation deployed d m := (deployed json_text resolve sem (mo_decl m) (mo_code m) kw dl conv veq read strict E d (mo_tab m)).
Hypothesis DP : deployed d m.
Hypothesis DP2 : deployed d2 m2.
Hypothesis EV : evolves resolve sem m m2.
Notation object := (@object U (many X)).
Notation column f := (strip_raw (sf_ident f)).
Notation fields m := (row_fields resolve (mo_decl m)).
Notation kind f := (cd_type _ (sem (sf_ty f))).
Notation K m := (given_fits json_text (mo_tab m) (do_pkcol (mo_code m))).
Notation pk m := (do_pk (mo_code m)).

Lemma fields_inj d' x f f' : deployed d' x -> In f (fields x) -> In f' (fields x) -> column f = column f' -> f = f'.
Proof. intros D H H'. exact (row_inj resolve (mo_decl x) (dp_compiles _ _ _ _ _ _ _ _ _ _ _ _ _ _ D) f f' H H'). Qed.
Lemma pk_field d' x : deployed d' x -> In (pk x) (fields x) /\ do_pkcol (mo_code x) = column (pk x).
Proof.
  intros D. split.
  - exact (pk_row resolve (mo_decl x) (mo_code x) (dp_compiles _ _ _ _ _ _ _ _ _ _ _ _ _ _ D) (dp_code _ _ _ _ _ _ _ _ _ _ _ _ _ _ D)).
  - exact (pkcol_eq resolve (mo_decl x) (mo_code x) (dp_code _ _ _ _ _ _ _ _ _ _ _ _ _ _ D)).
Qed.
Lemma field_column d' x f : deployed d' x -> In f (fields x) -> exists c, In c (t_cols (mo_tab x)) /\ c_name c = column f /\ is_kind c (kind f) /\ (c_pk c = true <-> f = pk x).
Proof.
  intros D Hf. destruct (proj1 (mi_columns _ _ _ _ _ _ _ (dp_model _ _ _ _ _ _ _ _ _ _ _ _ _ _ D)) f Hf) as (c & Hc & CF).
  exists c. split; [exact Hc|]. split; [apply CF|]. split; [exact (cf_type _ _ _ _ CF)|exact (cf_pk _ _ _ _ CF)].
Qed.
Lemma column_field d' x c : deployed d' x -> In c (t_cols (mo_tab x)) -> exists f, In f (fields x) /\ c_name c = column f /\ is_kind c (kind f) /\ (c_pk c = true <-> f = pk x).
Proof.
  intros D Hc. destruct (proj2 (mi_columns _ _ _ _ _ _ _ (dp_model _ _ _ _ _ _ _ _ _ _ _ _ _ _ D)) c Hc) as (f & Hf & CF).
  exists f. split; [exact Hf|]. split; [apply CF|]. split; [exact (cf_type _ _ _ _ CF)|exact (cf_pk _ _ _ _ CF)].
Qed.
Lemma kind_one c a b : is_kind c a -> is_kind c b -> a = b.
Proof. unfold is_kind. intros -> H. now injection H. Qed.

(** The keys are the same. *)
Lemma key_takes d' x k : deployed d' x -> K x k <-> (of_kind k (kind (pk x)) /\ value_ok json_text k /\ ~ is_custom k /\ (forall r, k = VReal r -> f64_finite r = true) /\ k <> VNull).
Proof.
  intros D. destruct (pk_field d' x D) as [Pk Ec]. split.
  - intros (c & Hc & En & ty & T1 & T2 & T3 & T4 & T5 & T6). destruct (column_field d' x c D Hc) as (f & Hf & Nf & Kf & Pf).
    rewrite En, Ec in Nf. pose proof (fields_inj d' x f (pk x) D Hf Pk (eq_sym Nf)). subst f.
    rewrite (kind_one c _ _ Kf T1). repeat (split; [assumption|]). intros ->. destruct (T6 eq_refl) as [_ T7]. rewrite (proj2 Pf eq_refl) in T7. discriminate.
  - intros (T2 & T3 & T4 & T5 & T6). destruct (field_column d' x (pk x) D Pk) as (c & Hc & Nc & Kc & _). exists c. split; [exact Hc|]. split; [now rewrite Nc|].
    exists (kind (pk x)). repeat (split; [assumption|]). intros F. contradiction.
Qed.
Lemma key_same k : K m2 k <-> K m k.
Proof. rewrite (key_takes d2 m2 k DP2), (key_takes d m k DP). now rewrite (proj2 (ev_key _ _ _ _ EV)). Qed.

(** A row that fits has a value of the field's kind. *)
Lemma row_value d' x r f : deployed d' x -> row_fits json_text (mo_tab x) r -> In f (fields x) -> exists v, field (column f) r = Some v /\ of_kind v (kind f).
Proof.
  intros D RF Hf. destruct (field_column d' x f D Hf) as (c & Hc & Nc & _).
  destruct (field_in r (column f)) as (v & Hv); [apply RF; exists c; auto|]. exists v. split; [exact Hv|].
  pose proof (proj1 (Forall_forall _ _) (proj2 (proj2 RF)) _ (StoredProofs.field_pair _ _ _ Hv)) as (c' & Hc' & Nc' & ty & Kc' & Ov & _). cbn [fst snd] in *.
  destruct (column_field d' x c' D Hc') as (f' & Hf' & Nf' & Kf' & _). rewrite Nc' in Nf'. pose proof (fields_inj d' x f f' D Hf Hf' Nf'). subst f'.
  now rewrite (kind_one c' _ _ Kf' Kc').
Qed.
Lemma old_or_new f2 : (exists f, In f (fields m) /\ column f = column f2) \/ is_new resolve m f2.
Proof.
  unfold is_new. induction (fields m) as [|a l IH]; [right; intros f []|].
  destruct (string_dec (column a) (column f2)) as [Ee|Ne]; [left; exists a; split; [now left|exact Ee]|].
  destruct IH as [(f & Hf & Ef)|N]; [left; exists f; split; [now right|exact Ef]|right; intros f [<-|Hf]; auto].
Qed.
Lemma new_column f2 c : is_new resolve m f2 -> c_name c = column f2 -> ~ has_column (mo_tab m) (c_name c).
Proof. intros N Ec (c0 & Hc0 & E0). destruct (column_field d m c0 DP Hc0) as (f & Hf & Nf & _). apply (N f Hf). congruence. Qed.
Lemma one_column c c' : In c (t_cols (mo_tab m2)) -> In c' (t_cols (mo_tab m2)) -> c_name c = c_name c' -> c = c'.
Proof.
  intros H H' Ee. pose proof (us_wf _ (dp_schema _ _ _ _ _ _ _ _ _ _ _ _ _ _ DP2)) as W.
  destruct (proj2 W _ _ (mi_table _ _ _ _ _ _ _ (dp_model _ _ _ _ _ _ _ _ _ _ _ _ _ _ DP2))) as [_ WT].
  destruct WT as [ND _]. clear -ND H H' Ee. induction (t_cols (mo_tab m2)) as [|a l IH]; [destruct H|]. cbn in ND. inversion ND as [|? ? N1 N2]; subst.
  destruct H as [<-|H], H' as [<-|H']; [reflexivity|exfalso; apply N1; rewrite Ee; now apply in_map|exfalso; apply N1; rewrite <- Ee; now apply in_map|auto].
Qed.

(** A row and what becomes of it. *)
Variable r r' : Sql.row.
Hypothesis RF : row_fits json_text (mo_tab m) r.
Hypothesis RA : row_after (mo_tab m) (mo_tab m2) r r'.

Lemma kept_value f f2 v : In f (fields m) -> In f2 (fields m2) -> column f = column f2 -> field (column f) r = Some v ->
  field (column f2) r' = Some (widened (kind f2) v).
Proof.
  intros Hf Hf2 Ec Hv. destruct (field_column d2 m2 f2 DP2 Hf2) as (c2 & Hc2 & N2 & K2 & _). destruct (field_column d m f DP Hf) as (c & Hc & Nc & _).
  destruct (proj2 RA c2 Hc2) as [RK _]. rewrite N2 in RK. apply RK; [exists c; split; [exact Hc|congruence]|now rewrite <- Ec|exact K2].
Qed.
Lemma same_key_value : exists k, field (do_pkcol (mo_code m)) r = Some k /\ field (do_pkcol (mo_code m2)) r' = Some k.
Proof.
  destruct (pk_field d m DP) as [P1 P2], (pk_field d2 m2 DP2) as [Q1 Q2]. destruct (row_value d m r (pk m) DP RF P1) as (k & Hk & Ok).
  exists k. rewrite P2, Q2. split; [exact Hk|]. assert (Ec : column (pk m) = column (pk m2)) by (rewrite <- P2, <- Q2; symmetry; apply (ev_key _ _ _ _ EV)).
  rewrite (kept_value (pk m) (pk m2) k P1 Q1 Ec Hk). rewrite (proj2 (ev_key _ _ _ _ EV)). now rewrite widened_same.
Qed.
Lemma has_key_same k : has_key E (do_pkcol (mo_code m2)) k r' = has_key E (do_pkcol (mo_code m)) k r.
Proof. destruct same_key_value as (x & H1 & H2). unfold has_key. now rewrite H1, H2. Qed.

(** What the row of an object becomes is the row of what the object becomes. *)
Lemma after_is_row (o o2 : object) : is_row_of resolve sem (mo_decl m) (mo_code m) o r -> object_after resolve sem m m2 o o2 ->
  is_row_of resolve sem (mo_decl m2) (mo_code m2) o2 r'.
Proof.
  intros (HO & FS & k & SK & RL) OA.
  assert (G : forall f2, In f2 (fields m2) -> exists v u, obj_get o2 (sf_ident f2) = Some (FV u) /\ stands_for sem f2 v u /\ field (column f2) r' = Some v).
  { intros f2 Hf2. destruct (old_or_new f2) as [(f & Hf & Ec)|N].
    - destruct (HO f Hf) as (v & Sv & Fv). destruct (oa_kept _ _ _ _ _ _ OA f f2 v Hf Hf2 Ec Sv) as (u2 & G1 & G2).
      exists (widened (kind f2) v), u2. split; [exact G1|]. split; [exact G2|]. now apply (kept_value f).
    - destruct (oa_new _ _ _ _ _ _ OA f2 Hf2 N) as (c & v & u & Hc & Nc & Dv & G1 & G2). exists (widened (kind f2) v), u. split; [exact G1|]. split; [exact G2|].
      destruct (proj2 (proj2 RA c Hc) (new_column f2 c N Nc)) as (v' & ty & Dv' & Kt & Fv'). rewrite Dv in Dv'. injection Dv' as <-.
      destruct (field_column d2 m2 f2 DP2 Hf2) as (c' & Hc' & Nc' & Kc' & _). rewrite (one_column c' c Hc' Hc (eq_trans Nc' (eq_sym Nc))) in Kc'.
      rewrite <- Nc, (kind_one c _ _ Kc' Kt). exact Fv'. }
  split; [|split].
  - intros f2 Hf2. destruct (G f2 Hf2) as (v & u & G1 & G2 & G3). exists v. split; [|exact G3]. exists u. split; [exact G1|apply G2].
  - intros f2 u Hf2 Hu v Hv. destruct (G f2 Hf2) as (v' & u' & G1 & (G2 & G3 & G4) & _). rewrite Hu in G1. injection G1 as <-.
    rewrite Hv in G2. injection G2 as <-. auto.
  - exists k. split.
    + destruct (pk_field d m DP) as [P1 P2], (pk_field d2 m2 DP2) as [Q1 Q2]. destruct SK as (u & Gu & Cu). exists u.
      assert (Ec : column (pk m) = column (pk m2)) by (rewrite <- P2, <- Q2; symmetry; apply (ev_key _ _ _ _ EV)).
      destruct (ev_key _ _ _ _ EV) as [_ Et]. split; [exact (oa_same _ _ _ _ _ _ OA (pk m) (pk m2) u P1 Q1 Ec Et Gu)|now rewrite Et].
    + intros f2 Hf2. exact (oa_relations _ _ _ _ _ _ OA f2 k Hf2 SK).
Qed.

(** Such an object there is, and only one. *)
Lemma after_exists (o : object) : is_row_of resolve sem (mo_decl m) (mo_code m) o r -> exists o2 : object, object_after resolve sem m m2 o o2.
Proof.
  intros (HO & FS & k & SK & RL).
  set (Q := fun (f2 : sfield) (x : @fval U (many X)) =>
    (In f2 (fields m2) -> exists u, x = FV u
       /\ (forall f, In f (fields m) -> column f = column f2 -> forall v, CodegenSpec.stores sem o f v -> stands_for sem f2 (widened (kind f2) v) u)
       /\ (is_new resolve m f2 -> exists c v, In c (t_cols (mo_tab m2)) /\ c_name c = column f2 /\ column_default c = Ok v /\ stands_for sem f2 (widened (kind f2) v) u))
    /\ (In f2 (relation_fields resolve (mo_decl m2)) -> exists y, x = FM y /\ m_owner y = Some k /\ m_table y = relation_name (table_name m2) f2)).
  assert (KEPT : forall f v, In f (fields m) -> CodegenSpec.stores sem o f v -> of_kind v (kind f) /\ exists u, obj_get o (sf_ident f) = Some (FV u) /\ stands_for sem f v u).
  { intros f v Hf Sv. destruct (HO f Hf) as (v' & Sv' & Fv'). pose proof Sv as (u & Gu & Cu). pose proof Sv' as (u' & Gu' & Cu').
    rewrite Gu in Gu'. injection Gu' as <-. rewrite Cu in Cu'. injection Cu' as <-.
    destruct (row_value d m r f DP RF Hf) as (v2 & F2 & O2). rewrite Fv' in F2. injection F2 as <-. split; [exact O2|].
    exists u. split; [exact Gu|]. split; [exact Cu|]. exact (FS f u Hf Gu v Cu). }
  destruct (build (st_fields (mo_decl m2)) Q) as (o2 & Ho2).
  - pose proof (proj1 (dp_compiles _ _ _ _ _ _ _ _ _ _ _ _ _ _ DP2)) as ND. clear -ND.
    induction (st_fields (mo_decl m2)) as [|a l IH]; cbn in *; [constructor|]. inversion ND as [|? ? N1 N2]; subst. constructor; [|auto].
    intros H. apply N1. apply in_map_iff in H as (b & Eb & Hb). rewrite <- Eb. now apply (in_map (fun f => strip_raw (sf_ident f))).
  - intros f2 Hf2. destruct (many_like resolve f2) eqn:Em.
    + exists (FM {| m_owner := Some k; m_table := relation_name (table_name m2) f2; m_otype := TInt; m_removed := []; m_new := []; m_all := None |}).
      split; [intros H; unfold row_fields in H; apply filter_In in H as [_ H]; rewrite Em in H; discriminate|].
      intros _. eexists. split; [reflexivity|]. auto.
    + assert (Hr : In f2 (fields m2)) by (unfold row_fields; apply filter_In; rewrite Em; auto).
      assert (NR : ~ In f2 (relation_fields resolve (mo_decl m2))) by (unfold relation_fields; intros H; apply filter_In in H as [_ H]; rewrite Em in H; discriminate).
      destruct (old_or_new f2) as [(f & Hf & Ec)|N].
      * destruct (HO f Hf) as (v & Sv & Fv). destruct (KEPT f v Hf Sv) as (Ov & u & Gu & Su).
        assert (X2 : exists u2, stands_for sem f2 (widened (kind f2) v) u2).
        { destruct (ev_kept _ _ _ _ EV f f2 Hf Hr Ec) as [Et|H]; [|exact (H v u Su)]. exists u. rewrite Et, widened_same by exact Ov.
          unfold stands_for in *. now rewrite Et. }
        destruct X2 as (u2 & S2). exists (FV u2). split; [|intros H; contradiction]. intros _. exists u2. split; [reflexivity|]. split.
        -- intros f' Hf' Ec' v' Sv'. pose proof (fields_inj d m f f' DP Hf Hf' (eq_trans Ec (eq_sym Ec'))). subst f'.
           destruct Sv as (a & A1 & A2), Sv' as (b & B1 & B2). rewrite A1 in B1. injection B1 as <-. rewrite A2 in B2. injection B2 as <-. exact S2.
        -- intros N. exfalso. exact (N f Hf Ec).
      * destruct (field_column d2 m2 f2 DP2 Hr) as (c & Hc & Nc & _).
        destruct (proj2 (proj2 RA c Hc) (new_column f2 c N Nc)) as (v & ty & Dv & _).
        destruct (ev_new _ _ _ _ EV f2 c v Hr N Hc Nc Dv) as (u & Su).
        exists (FV u). split; [|intros H; contradiction]. intros _. exists u. split; [reflexivity|]. split; [intros f Hf Ec; exfalso; exact (N f Hf Ec)|].
        intros _. exists c, v. auto.
  - exists o2.
    assert (ROW : forall f2, In f2 (fields m2) -> In f2 (st_fields (mo_decl m2))) by (unfold row_fields; intros f2 H; now apply filter_In in H as [H _]).
    assert (REL : forall f2, In f2 (relation_fields resolve (mo_decl m2)) -> In f2 (st_fields (mo_decl m2))) by (unfold relation_fields; intros f2 H; now apply filter_In in H as [H _]).
    constructor.
    + intros f f2 u Hf Hf2 Ec Et Gu. destruct (Ho2 f2 (ROW f2 Hf2)) as (x & Gx & Q1 & _). destruct (Q1 Hf2) as (u2 & -> & Q2 & _). rewrite Gx.
      destruct (HO f Hf) as (v & Sv & _). destruct (KEPT f v Hf Sv) as (Ov & u' & Gu' & Su). rewrite Gu in Gu'. injection Gu' as <-.
      specialize (Q2 f Hf Ec v Sv). rewrite Et, widened_same in Q2 by exact Ov. destruct Q2 as (_ & _ & Q3), Su as (_ & _ & S3). rewrite Et, S3 in Q3. injection Q3 as ->. reflexivity.
    + intros f f2 v Hf Hf2 Ec Sv. destruct (Ho2 f2 (ROW f2 Hf2)) as (x & Gx & Q1 & _). destruct (Q1 Hf2) as (u2 & -> & Q2 & _). exists u2. eauto.
    + intros f2 Hf2 N. destruct (Ho2 f2 (ROW f2 Hf2)) as (x & Gx & Q1 & _). destruct (Q1 Hf2) as (u2 & -> & _ & Q3). destruct (Q3 N) as (c & v & H1 & H2 & H3 & H4).
      exists c, v, u2. auto.
    + intros f2 k' Hf2 Sk'. destruct (Ho2 f2 (REL f2 Hf2)) as (x & Gx & _ & Q1). destruct (Q1 Hf2) as (y & -> & H1 & H2). exists y. split; [exact Gx|]. split; [|exact H2].
      destruct SK as (a & A1 & A2), Sk' as (b & B1 & B2). rewrite A1 in B1. injection B1 as <-. rewrite A2 in B2. injection B2 as <-. exact H1.
Qed.
End Evolved.

Lemma forall2_in {A B} (R : A -> B -> Prop) l l' : Forall2 R l l' -> (forall b, In b l' -> exists a, In a l /\ R a b) /\ (forall a, In a l -> exists b, In b l' /\ R a b).
Proof.
  induction 1 as [|a b l l' Hr _ [IH1 IH2]]; [split; intros ? []|]. split.
  - intros x [<-|Hx]; [exists a; split; [now left|exact Hr]|]. destruct (IH1 x Hx) as (y & Hy & Ry). exists y. split; [now right|exact Ry].
  - intros x [<-|Hx]; [exists b; split; [now left|exact Hr]|]. destruct (IH2 x Hx) as (y & Hy & Ry). exists y. split; [now right|exact Ry].
Qed.

Section Known.
Context {U X : Type}.
Variable json_text : string -> option string.
Variable resolve : bool -> list string -> string -> option string.
Variable sem : ty -> codec U.
Variable kw : string -> bool.
Variable dl : dialect.
Variable conv : bool -> list string -> lvalue -> option lvalue.
Variable veq : lvalue -> lvalue -> bool.
Variable read : bool -> string -> f64.
Variable strict : bool.
Variable E : engine.
Notation deployed d m := (deployed json_text resolve sem (mo_decl m) (mo_code m) kw dl conv veq read strict E d (mo_tab m)).
Notation all_deployed := (all_deployed json_text resolve sem kw dl conv veq read strict E).
Notation object := (@object U (many X)).
Notation knowledge := (@knowledge U X).
Notation K m := (given_fits json_text (mo_tab m) (do_pkcol (mo_code m))).
Notation inv := (@inv U X json_text resolve sem kw dl conv strict E).

(** The rows agree with what is known: as [right], but for [get]. *)
Definition row_right (D : Sql.db) (m : model) (k : SqlVal) (x : status object) : Prop :=
  match x with Absent => ~ row_exists E (mo_code m) D k
    | Present o => row_exists E (mo_code m) D k
        /\ forall r, In r (D (table_name m)) -> has_key E (do_pkcol (mo_code m)) k r = true -> is_row_of resolve sem (mo_decl m) (mo_code m) o r
    | Unclear => True end.
Definition rows_right (models : list model) (D : Sql.db) (kn : knowledge) : Prop :=
  forall m k, In m models -> K m k -> row_right D m k (kn (table_name m) k).
Definition fit (d : ADB) (D : Sql.db) : Prop := forall n t, In (n, t) (a_tables d) -> Forall (row_fits json_text t) (D n).

Lemma right_after d d2 models models2 D D2 (kn kn2 : knowledge) : all_deployed d models -> all_deployed d2 models2 -> fit d D -> rows_after d d2 D D2 ->
  rows_right models D kn -> knowledge_after json_text resolve sem d models models2 kn kn2 -> rows_right models2 D2 kn2.
Proof.
  intros AD AD2 FT (R1 & R2 & _) RR KA m2 k Hm2 Kk. pose proof (AD2 m2 Hm2) as DP2.
  pose proof (mi_table _ _ _ _ _ _ _ (dp_model _ _ _ _ _ _ _ _ _ _ _ _ _ _ DP2)) as T2.
  destruct (KA m2 k Hm2 Kk) as [(m & Hm & EV & SA)|[(NT & KU)|KU]].
  - pose proof (AD m Hm) as DP. pose proof (mi_table _ _ _ _ _ _ _ (dp_model _ _ _ _ _ _ _ _ _ _ _ _ _ _ DP)) as T.
    pose proof (proj1 (key_same json_text resolve sem kw dl conv veq read strict E d d2 m m2 DP DP2 EV k) Kk) as Kk1. specialize (RR m k Hm Kk1).
    pose proof (ev_table _ _ _ _ EV) as ET. rewrite ET in T2.
    pose proof (R1 _ _ _ T T2) as F2. destruct (forall2_in _ _ _ F2) as [B1 B2]. pose proof (proj1 (Forall_forall _ _) (FT _ _ T)) as FF.
    assert (BACK : forall r', In r' (D2 (table_name m2)) -> has_key E (do_pkcol (mo_code m2)) k r' = true ->
      exists r, In r (D (table_name m)) /\ row_after (mo_tab m) (mo_tab m2) r r' /\ has_key E (do_pkcol (mo_code m)) k r = true).
    { intros r' Hr' Hk. rewrite ET in Hr'. destruct (B1 r' Hr') as (r & Hr & RA). exists r. split; [exact Hr|]. split; [exact RA|].
      now rewrite <- (has_key_same json_text resolve sem kw dl conv veq read strict E d d2 m m2 DP DP2 EV r r' (FF r Hr) RA k). }
    destruct (kn (table_name m) k) as [|o|], (kn2 (table_name m2) k) as [|o2|]; cbn in SA; try contradiction; try exact Logic.I; cbn in RR |- *.
    + intros (r' & Hr' & Hk). destruct (BACK r' Hr' Hk) as (r & Hr & _ & Hk1). apply RR. exists r. auto.
    + destruct RR as [(r & Hr & Hk) IR]. split.
      * destruct (B2 r Hr) as (r' & Hr' & RA). exists r'. split; [now rewrite ET|].
        now rewrite (has_key_same json_text resolve sem kw dl conv veq read strict E d d2 m m2 DP DP2 EV r r' (FF r Hr) RA k).
      * intros r' Hr' Hk'. destruct (BACK r' Hr' Hk') as (r1 & Hr1 & RA1 & Hk1).
        exact (after_is_row json_text resolve sem kw dl conv veq read strict E d d2 m m2 DP DP2 EV r1 r' RA1 o o2 (IR r1 Hr1 Hk1) SA).
  - destruct KU as [-> | ->]; [|exact Logic.I]. cbn. intros (r & Hr & _). rewrite (R2 (table_name m2)) in Hr; [destruct Hr|now exists (mo_tab m2)|exact NT].
  - rewrite KU. exact Logic.I.
Qed.

(** ... and for [get], once the database keeps the rows. *)
Lemma rows_inv d models D db (kn : knowledge) : all_deployed d models -> keeps json_text E conv strict d D db -> rows_right models D kn -> inv d models D db kn.
Proof.
  intros AD KP RR. split; [exact KP|]. intros m k Hm Kk. specialize (RR m k Hm Kk). destruct (kn (table_name m) k) as [|o|]; [| |split; exact Logic.I]; cbn in RR.
  - now apply (absent_right json_text resolve sem kw dl conv veq read strict E d models AD).
  - destruct RR as [(x & Hx & Hk) IR]. apply (present_right json_text resolve sem kw dl conv veq read strict E d models AD D db m k o Hm KP Kk); [|exact IR]. split.
    + destruct (row_got (X := X) json_text resolve sem (mo_decl m) (mo_code m) kw dl conv veq read strict E d (mo_tab m) (AD m Hm) D db k KP Kk (ex_intro _ x (conj Hx Hk))) as (vs & Hvs). eauto.
    + intros r Hr. unfold HistorySpec.gets in Hr.
      rewrite (get_rows json_text resolve sem (mo_decl m) (mo_code m) kw dl conv veq read strict E d (mo_tab m) (AD m Hm) D db k _ KP Kk) in Hr.
      destruct Hr as [[N _]|(y & vs & Hy & Hky & Hvs & ->)]; [exfalso; apply N; exists x; auto|].
      destruct (IR y Hy Hky) as (HO & FS & k' & SK & RL).
      exact (ObjProofs.read_back resolve sem (mo_decl m) (mo_code m) (dp_compiles _ _ _ _ _ _ _ _ _ _ _ _ _ _ (AD m Hm)) (dp_code _ _ _ _ _ _ _ _ _ _ _ _ _ _ (AD m Hm)) o y vs k' SK FS HO RL Hvs).
Qed.
Lemma inv_rows d models D db (kn : knowledge) : inv d models D db kn -> rows_right models D kn.
Proof. intros [_ I] m k Hm Kk. exact (proj2 (I m k Hm Kk)). Qed.
End Known.

(** * The tables are left in place *)
(** What every method of a connection keeps, saving and deleting keep. *)
Section Over.
Context {W U X : Type}.
Variable C : methods W.
Variable sem : ty -> codec U.
Variable valid : U -> bool.
Variable init : U -> SqlVal -> outcome unit * U.
Variable g : dbobject.
Variable R : W -> W -> Prop.
Hypothesis R_refl : forall w, R w w.
Hypothesis R_trans : forall a b c, R a b -> R b c -> R a c.
Hypothesis R_insert : forall t cols vs w, R w (snd (on_insert_only C t cols vs w)).
Hypothesis R_returning : forall t cols pk ty vs w, R w (snd (on_insert_returning_pk C t cols pk ty vs w)).
Hypothesis R_replace : forall t cols pk vs w, R w (snd (on_insert_or_replace C t cols pk vs w)).
Hypothesis R_update : forall t pk kv cols vs w, R w (snd (on_update C t pk kv cols vs w)).
Hypothesis R_delete : forall t e w, R w (snd (on_delete_where C t e w)).
Notation object := (@object U (many X)).

Lemma insert_new_keeps t owner l w : R w (snd (insert_new_on C t owner l w)).
Proof.
  revert w. induction l as [|v l IH]; intros w; cbn [insert_new_on]; [apply R_refl|].
  pose proof (R_insert t many_columns [owner; v] w) as H. destruct (on_insert_only C t many_columns [owner; v] w) as [[x|e|] w']; cbn [snd] in H |- *; try exact H.
  apply (R_trans _ _ _ H), IH.
Qed.
Lemma many_save_keeps (m : many X) w : R w (snd (many_save_on C m w)).
Proof.
  unfold many_save_on. destruct (m_owner m) as [owner|]; [|apply R_refl].
  pose proof (insert_new_keeps (m_table m) owner (rev (m_new m)) w) as H.
  destruct (insert_new_on C (m_table m) owner (rev (m_new m)) w) as [[[x|e|] rest] w']; cbn [snd] in H |- *; try exact H.
  destruct (m_removed m) as [|v l]; [exact H|].
  pose proof (R_delete (m_table m) (BIn "has" (v :: l)) w') as H'. destruct (on_delete_where C (m_table m) (BIn "has" (v :: l)) w') as [e w2]; cbn [snd] in H' |- *.
  exact (R_trans _ _ _ H H').
Qed.
Lemma save_manys_keeps l (o : object) w : R w (snd (save_manys_on C sem g l o w)).
Proof.
  revert o w. induction l as [|[f t] l IH]; intros o w; cbn [save_manys_on]; [apply R_refl|].
  destruct (obj_get o f) as [[u|m]|]; try apply R_refl. destruct (field_sql sem o (do_pk g)) as [owner|e|]; try apply R_refl.
  pose proof (many_save_keeps (ensure_init m t owner (cd_type _ (sem (sf_ty (do_pk g))))) w) as H.
  destruct (many_save_on C (ensure_init m t owner (cd_type _ (sem (sf_ty (do_pk g))))) w) as [[[x|e|] m'] w']; cbn [snd] in H |- *; try exact H.
  apply (R_trans _ _ _ H), IH.
Qed.
Lemma insert_and_init_keeps icols vs (o : object) u w : R w (snd (insert_and_init_on C sem init g icols vs o u w)).
Proof.
  unfold insert_and_init_on. destruct vs as [vs|e|]; try apply R_refl.
  pose proof (R_returning (do_table g) icols (do_pkcol g) (cd_type _ (sem (sf_ty (do_pk g)))) vs w) as H.
  destruct (on_insert_returning_pk C (do_table g) icols (do_pkcol g) (cd_type _ (sem (sf_ty (do_pk g)))) vs w) as [[kv|e|] w']; cbn [snd] in H |- *; try exact H.
  destruct (init u kv) as [r u']. exact H.
Qed.
Lemma save_row_keeps (o : object) w : R w (snd (save_row_on C sem valid init g o w)).
Proof.
  unfold save_row_on. destruct (obj_key g o) as [u|]; [|apply R_refl].
  destruct (do_auto g && Nat.eqb (List.length (dr_columns (do_result g))) 1).
  - destruct (valid u); [apply R_refl|apply insert_and_init_keeps].
  - destruct (do_auto g).
    + destruct (valid u); [|apply insert_and_init_keeps].
      destruct (field_sql sem o (do_pk g)) as [kv|e|]; try apply R_refl; destruct (non_auto_values sem g o false) as [vs|e'|]; try apply R_refl.
      pose proof (R_update (do_table g) (do_pkcol g) kv (map fst (do_insert g)) vs w) as H.
      destruct (on_update C (do_table g) (do_pkcol g) kv (map fst (do_insert g)) vs w) as [r w']. exact H.
    + destruct (non_auto_values sem g o true) as [vs|e|]; try apply R_refl.
      pose proof (R_replace (do_table g) (map fst (dr_columns (do_result g))) (do_pkcol g) vs w) as H.
      destruct (on_insert_or_replace C (do_table g) (map fst (dr_columns (do_result g))) (do_pkcol g) vs w) as [r w']. exact H.
Qed.
Lemma save_keeps (o : object) w : R w (snd (save_on C sem valid init g o w)).
Proof.
  unfold save_on. pose proof (save_row_keeps o w) as H. destruct (save_row_on C sem valid init g o w) as [[[x|e|] o'] w']; cbn [snd] in H |- *; try exact H.
  apply (R_trans _ _ _ H), save_manys_keeps.
Qed.
Lemma delete_keeps (o : object) w : R w (snd (delete_on C sem g o w)).
Proof. unfold delete_on. destruct (field_sql sem o (do_pk g)); try apply R_refl. apply R_delete. Qed.
End Over.

(** The same tables, with the same foreign keys. *)
Definition same_tables (a b : edb) : Prop := msorted a -> msorted b /\ forall n, option_map b_fks (mget n b) = option_map b_fks (mget n a).
Section Tables.
Context {U X : Type}.
Variable json_text : string -> option string.
Variable resolve : bool -> list string -> string -> option string.
Variable sem : ty -> codec U.
Variable valid : U -> bool.
Variable init : U -> SqlVal -> outcome unit * U.
Variable kw : string -> bool.
Variable dl : dialect.
Variable conv : bool -> list string -> lvalue -> option lvalue.
Variable veq : lvalue -> lvalue -> bool.
Variable read : bool -> string -> f64.
Variable E : engine.
Variable fresh : etab -> Z.

Lemma same_tables_refl a : same_tables a a.
Proof. intros S. split; [exact S|reflexivity]. Qed.
Lemma same_tables_trans a b c : same_tables a b -> same_tables b c -> same_tables a c.
Proof. intros H H' S. destruct (H S) as [S1 E1]. destruct (H' S1) as [S2 E2]. split; [exact S2|]. intros n. now rewrite E2. Qed.
Lemma call_tables db c db' : data_call kw dl conv veq read E fresh db c = Ok db' -> same_tables db db'.
Proof.
  unfold data_call. destruct (call_sql kw c) as [sv|e|]; cbn [obind]; try discriminate. destruct (collect_all sqlite_write (snd sv)) as [ps|e|]; cbn [obind]; try discriminate.
  destruct (parse_stmt dl (fst sv)) as [st|]; [|discriminate]. unfold change. destruct (target st) as [t|]; [|discriminate].
  destruct (mget t db) as [tb|] eqn:Et; [|discriminate]. destruct (names_fine tb st); [|discriminate]. destruct (SqliteData.added read fresh tb st) as [extra|]; [|discriminate].
  destruct (SqlStmt.exec E (fun _ _ => extra) (shown_db db) (snd sv) st) as [[D' x]|]; [|discriminate]. unfold settle.
  destruct (mapm (stored_row conv fresh tb) (D' t)) as [rs|]; [|discriminate].
  destruct (keys_ok veq (with_rows tb rs) && references_hold veq (mput t (with_rows tb rs) db) t); [|discriminate]. intros [= <-] S.
  split; [now apply mput_sorted|]. intros n. rewrite mget_mput by assumption. destruct (keqb_spec n t) as [->|N]; [|reflexivity]. now rewrite Et.
Qed.
Lemma run_tables c db : same_tables db (snd (sqlite_run kw dl conv veq read E fresh c db)).
Proof.
  unfold sqlite_run. destruct (data_call kw dl conv veq read E fresh db c) as [db'|e|] eqn:Ec; cbn [snd]; try apply same_tables_refl. now apply call_tables in Ec.
Qed.
Lemma returning_tables t cols pk ty vs db : same_tables db (snd (insert_returning_pk json_text kw dl conv veq read E fresh db t cols pk ty vs)).
Proof.
  unfold insert_returning_pk. destruct (data_call kw dl conv veq read E fresh db (InsertOnly t cols vs)) as [db'|e|] eqn:Ec; cbn [snd]; try apply same_tables_refl.
  now apply call_tables in Ec.
Qed.
Notation M := (sqlite_methods json_text kw dl conv veq read E fresh).
Lemma save_tables g (o : @object U (many X)) db : same_tables db (snd (save_on M sem valid init g o db)).
Proof.
  apply save_keeps; intros; cbn [sqlite_methods on_insert_only on_insert_returning_pk on_insert_or_replace on_update on_delete_where];
    eauto using same_tables_refl, same_tables_trans, run_tables, returning_tables.
Qed.
Lemma delete_tables g (o : @object U (many X)) db : same_tables db (snd (delete_on M sem g o db)).
Proof.
  apply delete_keeps; intros; cbn [sqlite_methods on_insert_only on_insert_returning_pk on_insert_or_replace on_update on_delete_where];
    eauto using same_tables_refl, same_tables_trans, run_tables, returning_tables.
Qed.
Lemma history_tables d models db (kn : @knowledge U X) db' kn' :
  HistorySpec.history json_text resolve sem valid init kw dl conv veq read E fresh d models db kn db' kn' -> same_tables db db'.
Proof.
  intros H. induction H as [db kn|db kn m db1 kn1 db2 kn2 Hm H _ IH]; [apply same_tables_refl|]. apply (same_tables_trans _ db1); [|exact IH]. clear IH.
  assert (SV : forall (o : @object U (many X)) r o' dbx dby, save_on M sem valid init (mo_code m) o dbx = (r, o', dby) -> same_tables dbx dby).
  { intros o r o' dbx dby Es. pose proof (save_tables (mo_code m) o dbx) as A. now rewrite Es in A. }
  assert (DE : forall (o : @object U (many X)) r dbx dby, delete_on M sem (mo_code m) o dbx = (r, dby) -> same_tables dbx dby).
  { intros o r dbx dby Es. pose proof (delete_tables (mo_code m) o dbx) as A. now rewrite Es in A. }
  destruct H; eauto.
Qed.
(** So what deploying needs stays true. *)
Lemma history_is strict d models s (kn : @knowledge U X) db' kn' D' :
  HistorySpec.history json_text resolve sem valid init kw dl conv veq read E fresh d models (dbs_rest s) kn db' kn' ->
  database_is conv strict d s -> keeps json_text E conv strict d D' db' -> database_is conv strict d {| dbs_rest := db'; dbs_mig := dbs_mig s |}.
Proof.
  intros H DI KP. destruct (history_tables _ _ _ _ _ _ H (di_sorted _ _ _ _ DI)) as [_ T]. constructor; cbn [dbs_rest].
  - apply KP.
  - specialize (T mig_name). rewrite (di_apart _ _ _ _ DI) in T. destruct (mget mig_name db'); [discriminate T|reflexivity].
  - apply KP.
  - intros m b f n Hm Hf. specialize (T m). rewrite Hm in T. destruct (mget m (dbs_rest s)) as [b0|] eqn:E0; [|discriminate T]. cbn in T. injection T as T.
    apply (di_temporary _ _ _ _ DI m b0 f n E0). now rewrite <- T.
Qed.
End Tables.
