(** Proofs for HistorySpec: one call after another. *)
From Coq Require Import Permutation.
From Verif Require Import Base SqlVal Adb AdbSpec Sql SqlStmt Query QuerySpec Stmt StmtSpec LiteralSpec Ddl DdlSpec SqliteSem SqliteData
  Backend BackendSpec MigrateSpec DataCalls StoredSpec Conn ConnProofs Many ManyProofs Conv Codegen CodegenSpec CodegenProofs Obj ObjSpec ObjProofs
  Props_Models Props_Objects Saved SavedSpec SavedProofs Props_Saved HistorySpec.

(** * Relations touch their own tables only *)
Section Conn.
Context {U X : Type}.
Variable resolve : bool -> list string -> string -> option string.
Variable sem : ty -> codec U.
Variable s : sdef.
Variable g : dbobject.
Variables (d : dialect) (kw : string -> bool) (b : backend) (E : engine).
Variable gen : Sql.db -> string -> list string -> Sql.row.
Variable K : SqlVal -> Prop.
Hypothesis S : setting resolve s g d kw b E gen K.
Notation object := (@object U (many X)).
Notation t := (do_table g).

Lemma manys_touch kv : forall fs (o : object) w r o' w', incl fs (relation_fields resolve s) -> NoDup (map (fun f => strip_raw (sf_ident f)) fs) ->
  CodegenSpec.stores sem o (do_pk g) kv ->
  (forall f, In f fs -> exists m, obj_get o (sf_ident f) = Some (FM m)
     /\ (m_owner m = None \/ m_owner m = Some kv /\ m_table m = relation_name t f)
     /\ room b (length (flat_map bound (m_removed m))) /\ relation_table (w_db w) (relation_name t f)) ->
  save_manys sem g d kw b E gen (map (fun f => (sf_ident f, relation_name t f)) fs) o w = (r, o', w') ->
  r <> Panic /\ (forall n, ~ In n (map (relation_name t) fs) -> w_db w' n = w_db w n).
Proof.
  destruct S as [Hc Hg KW EO NO EX FR].
  induction fs as [|f fs IH]; intros o w r o' w' Hin ND Hst Hown H.
  - cbn in H. inversion H; subst. split; [discriminate|auto].
  - cbn [map save_manys] in H. destruct (Hown f (or_introl eq_refl)) as (m & Hm & Hmo & Hroom & Hrt). rewrite Hm in H.
    assert (Efs : field_sql sem o (do_pk g) = Ok kv) by now apply field_sql_ok. rewrite Efs in H.
    set (m1 := ensure_init m (relation_name t f) kv (cd_type _ (sem (sf_ty (do_pk g))))) in *.
    assert (Hm1 : m_owner m1 = Some kv /\ m_table m1 = relation_name t f /\ m_new m1 = m_new m /\ m_removed m1 = m_removed m).
    { unfold m1, ensure_init. destruct Hmo as [Hmo|[Hmo Ht]]; rewrite Hmo; cbn; auto. }
    destruct Hm1 as (M1 & M2 & M3 & M4).
    assert (Hid1 : identifier (relation_name t f) = true).
    { pose proof (relations_named resolve s g d b Hg NO) as HN. rewrite Forall_forall in HN. apply HN, Hin. now left. }
    inversion ND as [|? ? ND1 ND2]; subst.
    pose proof (save_spec d kw b E gen KW EO m1 w kv M1) as HS. rewrite M2, M4 in HS. specialize (HS Hid1 Hrt Hroom).
    assert (HDo : forall n, n <> relation_name t f -> w_db (snd (many_save d kw b E gen m1 w)) n = w_db w n).
    { intros n N. destruct (many_save d kw b E gen m1 w) as [[[u|e|] m2] w2]; cbn [snd]; [| |contradiction].
      - destruct HS as [_ ->]. rewrite deleted_other, add_links_other; auto.
      - destruct HS as [(st & v & _ & _ & [-> | ->])|(_ & _ & [-> | ->])]; rewrite ?deleted_other, ?add_links_other; auto. }
    assert (Hne : forall f', In f' fs -> sf_ident f' <> sf_ident f /\ relation_name t f' <> relation_name t f).
    { intros f' Hf'. assert (strip_raw (sf_ident f') <> strip_raw (sf_ident f)).
      { intros He. apply ND1. rewrite <- He. apply (in_map (fun f => strip_raw (sf_ident f))). exact Hf'. }
      split; [congruence|]. intros He. apply relation_name_inj in He. contradiction. }
    destruct (many_save d kw b E gen m1 w) as [[[u|e|] m2] w2]; cbn [snd] in HDo; [| |contradiction].
    + assert (Hgo : forall i, i <> sf_ident f -> obj_get (obj_set o (sf_ident f) (FM m2)) i = obj_get o i).
      { intros i Hi. rewrite obj_get_set. destruct (String.eqb_spec (sf_ident f) i); [congruence|reflexivity]. }
      assert (Hpk : sf_ident f <> sf_ident (do_pk g)).
      { intros He. destruct (C31_key _ _ _ Hg) as (Hk & _). apply (pk_not_relation resolve s _ Hc Hk). rewrite <- He.
        apply in_map. apply Hin. now left. }
      destruct (IH (obj_set o (sf_ident f) (FM m2)) w2 r o' w') as [I1 I2]; auto.
      * intros x Hx. apply Hin. now right.
      * destruct Hst as (uu & Hu1 & Hu2). exists uu. rewrite Hgo by congruence. auto.
      * intros f' Hf'. destruct (Hne f' Hf') as [N1 N2]. destruct (Hown f' (or_intror Hf')) as (m' & A1 & A2 & A3 & A4).
        exists m'. rewrite Hgo by assumption. repeat split; auto. unfold relation_table in *. now rewrite HDo.
      * split; [exact I1|]. intros n Hn. rewrite I2 by (intros Hx; apply Hn; now right). apply HDo. intros ->. apply Hn. now left.
    + inversion H; subst. split; [discriminate|]. intros n Hn. apply HDo. intros ->. apply Hn. now left.
Qed.
End Conn.

(** * A save, whatever comes of it *)
Section Found.
Context {U X : Type}.
Variable json_text : string -> option string.
Variable resolve : bool -> list string -> string -> option string.
Variable sem : ty -> codec U.
Variable valid : U -> bool.
Variable init : U -> SqlVal -> outcome unit * U.
Variable s : sdef.
Variable g : dbobject.
Variable kw : string -> bool.
Variable dl : dialect.
Variable conv : bool -> list string -> lvalue -> option lvalue.
Variable veq : lvalue -> lvalue -> bool.
Variable read : bool -> string -> f64.
Variable strict : bool.
Variable E : engine.
Variable fresh : etab -> Z.
Variable d : ADB.
Variable t : ATable.
Hypothesis DP : deployed json_text resolve sem s g kw dl conv veq read strict E d t.
Notation keeps := (keeps json_text E conv strict d).
Notation M := (sqlite_methods json_text kw dl conv veq read E fresh).
Notation K := (given_fits json_text t (do_pkcol g)).
Notation object := (@object U (many X)).

Lemma save_any D db (o : object) r o' db' : keeps D db -> numbers_fit json_text fresh d db -> object_fits json_text resolve sem valid init s g d t o ->
  save_on M sem valid init g o db = (r, o', db') -> r <> Panic ->
  exists D', keeps D' db'
    /\ (forall n, n <> do_table g -> (forall f, In f (relation_fields resolve s) -> n <> relation_name (do_table g) f) -> D' n = D n)
    /\ (D' (do_table g) = D (do_table g)
        \/ exists kv, CodegenSpec.stores sem o' (do_pk g) kv /\ K kv /\ rows_of_others E g D' kv = rows_of_others E g D kv).
Proof.
  intros KP NF OF H NP. unfold save_on in H.
  pose proof (dp_compiles _ _ _ _ _ _ _ _ _ _ _ _ _ _ DP) as Hc. pose proof (dp_code _ _ _ _ _ _ _ _ _ _ _ _ _ _ DP) as Hg.
  destruct (own_row_sim json_text resolve sem valid init s g kw dl conv veq read strict E fresh d t DP D db o KP NF OF) as (kv0 & (D1 & fs & r' & K1 & A & HR) & RD).
  pose proof (is_setting json_text resolve sem s g kw dl conv veq read strict E d t DP kv0) as S.
  destruct (save_row_on M sem valid init g o db) as [[rr o1] db1] eqn:Er. cbn [fst snd] in K1, A, HR.
  destruct rr as [x|e|]; [|injection H as <- <- <-|injection H as <- <- <-; contradiction].
  2:{ destruct (row_refused json_text resolve sem valid init s g kw dl conv veq read strict E fresh d t DP D db o o1 e db1 KP NF OF Er) as [-> ->].
      exists D. auto. }
  specialize (RD x o1 db1 eq_refl). destruct r' as [x'|e'|]; try contradiction.
  assert (KK : key_kind K sem valid g o).
  { intros u k Hu Hv Ht. rewrite (pkcol_eq resolve s g Hg). apply (of_fields _ _ _ _ _ _ _ _ _ _ OF (do_pk g)).
    - apply (pk_row resolve s g Hc Hg).
    - intros _ Ha. split; [assumption|]. exists u. split; [assumption|]. destruct Hv as [Hv|Hv]; [congruence|assumption].
    - exists u. auto. }
  pose proof (rows_table json_text resolve sem s g kw dl conv veq read strict E d t DP D db KP) as T.
  specialize (HR []). rewrite app_nil_r in HR.
  change (save_row sem valid init g dl kw Sqlite E (numbered g kv0) o {| w_db := D; w_fate := fs |} = (Ok x', o1, {| w_db := D1; w_fate := [] |})) in HR.
  destruct S as [Hc' Hg' KW EO NO EX FR].
  destruct (field_sql sem o1 (do_pk g)) as [kv|e|] eqn:Ek.
  1:{ apply field_sql_ok in Ek.
    destruct (row_ready json_text resolve sem valid init s g kw dl conv veq read strict E d t DP D db o o1 kv0 kv KP OF RD Ek) as (Kk & RR & RDY).
    destruct (save_row_ok resolve sem valid init s g dl kw Sqlite E (numbered g kv0) K Hc Hg KW EO NO EX FR o o1 {| w_db := D; w_fate := fs |} _ _ T KK (rd_key _ _ _ _ _ _ _ _ _ _ _ _ _ RDY) HR)
      as [(u & Hu & kv1 & R1 & R2 & R3 & R4 & R5 & R6 & R7 & R8)|(u & Hu & _ & _ & Hno & -> & _)].
    2:{ exfalso. exact (Hno kv Ek). }
    assert (kv1 = kv) as -> by exact (stores_fun sem o1 _ _ _ R1 Ek). cbn [w_db] in *.
    destruct (manys_sim json_text resolve sem s g kw dl conv veq read strict E fresh d t DP kv0 kv Kk (relation_fields resolve s) o1 D1 db1 K1 (incl_refl _)
       (relations_nodup resolve s Hc) Ek RR) as (D2 & fs2 & r2 & K2 & A2 & H2).
    rewrite <- (relations_eq resolve s g Hg) in K2, A2, H2. rewrite H in K2, A2, H2. cbn [fst snd] in K2, A2, H2.
    specialize (H2 []). rewrite app_nil_r in H2.
    change (save_manys sem g dl kw Sqlite E (numbered g kv0) (do_save_many g) o1 {| w_db := D1; w_fate := fs2 |} = (r2, o', {| w_db := D2; w_fate := [] |})) in H2.
    rewrite (relations_eq resolve s g Hg) in H2.
    destruct (manys_touch resolve sem s g dl kw Sqlite E (numbered g kv0) K (Build_setting _ _ _ _ _ _ _ _ _ Hc Hg KW EO NO EX FR) kv (relation_fields resolve s)
       o1 {| w_db := D1; w_fate := fs2 |} r2 o' {| w_db := D2; w_fate := [] |} (incl_refl _) (relations_nodup resolve s Hc) Ek) with (2 := H2) as [_ TO].
    { intros f Hf. rewrite Forall_forall in RR. destruct (RR f Hf) as (m & Hm & Ow & _). exists m. split; [assumption|]. split; [assumption|]. split; [exact Logic.I|].
      cbn [w_db]. destruct (mi_relations _ _ _ _ _ _ _ (dp_model _ _ _ _ _ _ _ _ _ _ _ _ _ _ DP) f Hf) as (rt & Hrt & RF & _).
      eapply Forall_impl; [|exact (kp_fit _ _ _ _ _ _ _ K1 _ rt Hrt)]. cbn beta. intros r0 (_ & N2 & _) n [<-|[<-|[]]]; apply N2, RF; auto. }
    cbn [w_db] in TO. assert (HDt : D2 (do_table g) = D1 (do_table g)).
    { apply TO. intros Hin. apply in_map_iff in Hin as (f' & He & _). exact (relation_not_t g f' He). }
    exists D2. split; [assumption|]. split.
    - intros n N1 N2. rewrite TO; [now apply R4|]. intros Hin. apply in_map_iff in Hin as (f' & He & Hf'). exact (N2 f' Hf' (eq_sym He)).
    - right. exists kv. split.
      + destruct Ek as (u0 & U1 & U2). exists u0. split; [|assumption]. rewrite (manys_key sem g M _ _ _ _ _ _ (key_apart json_text resolve sem s g kw dl conv veq read strict E d t DP) H). exact U1.
      + split; [assumption|]. unfold rows_of_others. rewrite HDt. exact R6. }
  all: assert (Hno : forall kv, ~ CodegenSpec.stores sem o1 (do_pk g) kv) by (intros kv Hs; apply field_sql_ok in Hs; congruence).
  all: assert (D1 = D) as -> by
   (destruct RD as [[-> OK]|(u & u' & Ha & Hu & Hv & Eo1 & Hv' & Hto & Kk & MK)];
    [|exfalso; apply (Hno kv0); exists u'; split; [rewrite Eo1, obj_get_set, String.eqb_refl, Hu; reflexivity|assumption]];
    destruct (save_row_ok resolve sem valid init s g dl kw Sqlite E (numbered g kv0) K Hc Hg KW EO NO EX FR o o {| w_db := D; w_fate := fs |} {| w_db := D1; w_fate := [] |} x' T KK) with (2 := HR)
      as [(u & Hu & kv1 & R1 & _)|(u & Hu & _ & _ & _ & _ & Hw)];
    [intros u Hu Ha Hv; destruct (OK Ha) as (_ & u2 & Hu2 & Hv2); rewrite Hu in Hu2; injection Hu2 as <-; congruence
    |exfalso; exact (Hno kv1 R1)|now injection Hw]).
  all: destruct (manys_unsaved sem g M M (do_save_many g) o1) as (r3 & Q1 & _); [congruence|]; rewrite Q1 in H; injection H as <- <- <-; exists D; auto.
Qed.
End Found.
