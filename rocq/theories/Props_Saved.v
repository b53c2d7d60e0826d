(** Property C58: objects on a deployed SQLite database. *)
From Coq Require Import Permutation.
From Verif Require Import Base SqlVal Adb AdbSpec Conv ConvProofs Sql SqlStmt Query QuerySpec Stmt StmtSpec LiteralSpec Ddl DdlSpec SqliteSem SqliteData
  Backend BackendSpec MigrateSpec DataCalls StoredSpec Conn ConnProofs Many ManyProofs Codegen CodegenSpec CodegenProofs Obj ObjSpec ObjProofs
  Props_Query Props_Models Props_Objects Props_Schema Props_TursoScript Props_Migrations Props_Migrate Props_Stored Saved SavedSpec SavedProofs.

Section Found.
Context {U X : Type}.
Variable json_text : string -> option string.
Variable resolve : bool -> list string -> string -> option string.
Variable sem : ty -> codec U.
Variable valid : U -> bool.
Variable init : U -> SqlVal -> outcome unit * U.
Variable s : sdef.
Variable g : dbobject.
Variable kw : string -> bool.
Variable dl : dialect.
Variable conv : bool -> list string -> lvalue -> option lvalue.
Variable veq : lvalue -> lvalue -> bool.
Variable read : bool -> string -> f64.
Variable strict : bool.
Variable E : engine.
Variable fresh : etab -> Z.
Variable d : ADB.
Variable t : ATable.
Hypothesis DP : deployed json_text resolve sem s g kw dl conv veq read strict E d t.
Notation keeps := (keeps json_text E conv strict d).
Notation M := (sqlite_methods json_text kw dl conv veq read E fresh).
Notation K := (given_fits json_text t (do_pkcol g)).
Variables (D : Sql.db) (db db' : edb) (o o' : @object U (many X)) (kv : SqlVal).
Hypothesis KP : keeps D db.
Hypothesis NF : numbers_fit json_text fresh d db.
Hypothesis OF : object_fits json_text resolve sem valid init s g d t o.

Lemma saved_conn : save_on M sem valid init g o db = (Ok tt, o', db') -> CodegenSpec.stores sem o' (do_pk g) kv ->
  exists kv0 D' fs, keeps D' db' /\ K kv
    /\ setting resolve s g dl kw Sqlite E (numbered g kv0) K
    /\ ready resolve sem valid init s g Sqlite E (numbered g kv0) K (w_db {| w_db := D; w_fate := fs |}) o kv
    /\ save sem valid init g dl kw Sqlite E (numbered g kv0) o {| w_db := D; w_fate := fs |} = (Ok tt, o', {| w_db := D'; w_fate := [] |}).
Proof.
  intros H Hst. destruct (save_sim json_text resolve sem valid init s g kw dl conv veq read strict E fresh d t DP D db o KP NF OF) as (kv0 & (D' & fs & r' & K' & A & HC) & R).
  destruct (R tt o' db' H kv Hst) as (Kk & RDY). rewrite H in K', A, HC. cbn [fst snd] in K', A, HC.
  exists kv0, D', fs. split; [assumption|]. split; [assumption|].
  split; [exact (is_setting json_text resolve sem s g kw dl conv veq read strict E d t DP kv0)|]. split; [assumption|].
  destruct r' as [[]|e'|]; try contradiction. specialize (HC []). rewrite app_nil_r in HC. rewrite <- save_on_conn. exact HC.
Qed.
End Found.

Lemma forall2_in_l {A B} (R : A -> B -> Prop) l l' x : Forall2 R l l' -> In x l -> exists y, In y l' /\ R x y.
Proof. induction 1; intros []; [subst; eauto using in_eq|]. destruct IHForall2 as (y' & ? & ?); auto. exists y'. auto using in_cons. Qed.
Lemma forall2_in_r {A B} (R : A -> B -> Prop) l l' y : Forall2 R l l' -> In y l' -> exists x, In x l /\ R x y.
Proof. induction 1; intros []; [subst; eauto using in_eq|]. destruct IHForall2 as (y' & ? & ?); auto. exists y'. auto using in_cons. Qed.
Lemma forall2_and {A B} (P Q R : A -> B -> Prop) l l' : Forall2 P l l' -> Forall2 Q l l' ->
  (forall x y, In x l -> P x y -> Q x y -> R x y) -> Forall2 R l l'.
Proof.
  induction 1 as [|x y l l' HP _ IH]; intros HQ H; [constructor|]. inversion HQ; subst. constructor; [apply H; auto; now left|].
  apply IH; [assumption|]. intros a b Ha. apply H. now right.
Qed.

(** * C58 *)

(** On a SQLite database that has a model's tables, a saved object is got back by its key,
    equal: there is an answer, and every answer is that.
    Missing: an automatic key that is set but whose row is gone (C58_missing_row_refuted). *)
Theorem C58_round_trip_partial : forall U X json_text resolve sem valid init s g kw dl conv veq read strict E fresh d t D db db'
    (o o' : @object U (many X)) kv,
  deployed json_text resolve sem s g kw dl conv veq read strict E d t ->
  keeps json_text E conv strict d D db -> numbers_fit json_text fresh d db -> object_fits json_text resolve sem valid init s g d t o ->
  save_on (sqlite_methods json_text kw dl conv veq read E fresh) sem valid init g o db = (Ok tt, o', db') ->
  CodegenSpec.stores sem o' (do_pk g) kv -> fields_survive resolve sem s o' ->
  (numbered_already valid g o -> row_exists E g D kv) ->
  (exists r, sqlite_get_answers (X := X) json_text kw dl E sem g kv db' r)
  /\ forall r, sqlite_get_answers (X := X) json_text kw dl E sem g kv db' r -> exists o2, r = Ok o2 /\ equal_objects resolve s o' o2.
Proof.
  intros U X json_text resolve sem valid init s g kw dl conv veq read strict E fresh d t D db db' o o' kv DP KP NF OF H Hst FS HR.
  destruct (saved_conn json_text resolve sem valid init s g kw dl conv veq read strict E fresh d t DP D db db' o o' kv KP NF OF H Hst)
    as (kv0 & D' & fs & K' & Kk & S & R & HC).
  destruct (C29_save_get_partial _ _ _ _ _ _ _ _ _ _ _ _ _ _ _ _ _ _ _ S R FS HR HC Hst) as [(r & w2 & G1) G2].
  cbn [next_fate w_fate] in G2.
  pose proof (fun r => get_same (X := X) json_text resolve sem s g kw dl conv veq read strict E d t DP D' db' kv r K' Kk) as GS. split.
  - exists r. apply GS. eauto.
  - intros r2 Hr. apply GS in Hr as (w3 & Hr). exact (G2 r2 w3 Hr).
Qed.
Print Assumptions C58_round_trip_partial.

(** The save leaves the object as it was, but for a key the database chose and the
    bookkeeping of its relations, and what it is related to is stored. *)
Theorem C58_stored : forall U X json_text resolve sem valid init s g kw dl conv veq read strict E fresh d t D db db'
    (o o' : @object U (many X)) kv,
  deployed json_text resolve sem s g kw dl conv veq read strict E d t ->
  keeps json_text E conv strict d D db -> numbers_fit json_text fresh d db -> object_fits json_text resolve sem valid init s g d t o ->
  save_on (sqlite_methods json_text kw dl conv veq read E fresh) sem valid init g o db = (Ok tt, o', db') ->
  CodegenSpec.stores sem o' (do_pk g) kv ->
  (forall f, In f (row_fields resolve s) -> f <> do_pk g \/ do_auto g = false \/ numbered_already valid g o ->
     obj_get o' (sf_ident f) = obj_get o (sf_ident f))
  /\ exists D', keeps json_text E conv strict d D' db'
       /\ (forall f m, In f (relation_fields resolve s) -> obj_get o (sf_ident f) = Some (FM m) ->
             exists m', obj_get o' (sf_ident f) = Some (FM m') /\ m_owner m' = Some kv
               /\ m_table m' = relation_name (do_table g) f /\ m_new m' = [] /\ m_removed m' = []
               /\ Permutation (partners E D' (relation_name (do_table g) f) kv)
                    (without E (partners E D (relation_name (do_table g) f) kv ++ m_new m) (m_removed m)))
       /\ rows_of_others E g D' kv = rows_of_others E g D kv
       /\ (forall r, In r (D' (do_table g)) -> has_key E (do_pkcol g) kv r = true -> holds_object resolve sem s o' r)
       /\ (forall n, n <> do_table g -> (forall f, In f (relation_fields resolve s) -> n <> relation_name (do_table g) f) -> D' n = D n).
Proof.
  intros U X json_text resolve sem valid init s g kw dl conv veq read strict E fresh d t D db db' o o' kv DP KP NF OF H Hst.
  destruct (saved_conn json_text resolve sem valid init s g kw dl conv veq read strict E fresh d t DP D db db' o o' kv KP NF OF H Hst)
    as (kv0 & D' & fs & K' & Kk & S & R & HC).
  destruct (C29_save_keeps_fields _ _ _ _ _ _ _ _ _ _ _ _ _ _ _ _ _ _ _ S R HC Hst) as [F1 F2].
  destruct (C29_save_others _ _ _ _ _ _ _ _ _ _ _ _ _ _ _ _ _ _ _ S R HC Hst) as (O1 & _ & O3).
  destruct (save_main _ _ _ _ _ _ _ _ _ _ _ _ S _ _ _ _ _ R HC Hst) as (u & Hu & (S1 & S2 & S3 & S4 & S5 & S6 & S7 & S8 & S9)).
  split; [exact F1|]. exists D'. cbn [w_db] in *. auto.
Qed.
Print Assumptions C58_stored.

(** Every other object of the model is got as before. *)
Theorem C58_others : forall U X json_text resolve sem valid init s g kw dl conv veq read strict E fresh d t D db db'
    (o o' : @object U (many X)) kv id r,
  deployed json_text resolve sem s g kw dl conv veq read strict E d t ->
  keeps json_text E conv strict d D db -> numbers_fit json_text fresh d db -> object_fits json_text resolve sem valid init s g d t o ->
  save_on (sqlite_methods json_text kw dl conv veq read E fresh) sem valid init g o db = (Ok tt, o', db') ->
  CodegenSpec.stores sem o' (do_pk g) kv -> given_fits json_text t (do_pkcol g) id -> id <> kv ->
  (sqlite_get_answers (X := X) json_text kw dl E sem g id db' r <-> sqlite_get_answers json_text kw dl E sem g id db r).
Proof.
  intros U X json_text resolve sem valid init s g kw dl conv veq read strict E fresh d t D db db' o o' kv id r DP KP NF OF H Hst Kid Ne.
  destruct (saved_conn json_text resolve sem valid init s g kw dl conv veq read strict E fresh d t DP D db db' o o' kv KP NF OF H Hst)
    as (kv0 & D' & fs & K' & Kk & S & R & HC).
  destruct (C29_save_others _ _ _ _ _ _ _ _ _ _ _ _ _ _ _ _ _ _ _ S R HC Hst) as (_ & O2 & _).
  rewrite (get_same (X := X) json_text resolve sem s g kw dl conv veq read strict E d t DP D' db' id r K' Kid).
  rewrite (get_same (X := X) json_text resolve sem s g kw dl conv veq read strict E d t DP D db id r KP Kid).
  symmetry. exact (O2 id r [] Kid Ne).
Qed.
Print Assumptions C58_others.

(** An object whose automatic key is not set gets a key no stored object has, and knows it. *)
Theorem C58_new_key : forall U X json_text resolve sem valid init s g kw dl conv veq read strict E fresh d t D db db'
    (o o' : @object U (many X)) kv u,
  deployed json_text resolve sem s g kw dl conv veq read strict E d t ->
  keeps json_text E conv strict d D db -> numbers_fit json_text fresh d db -> object_fits json_text resolve sem valid init s g d t o ->
  do_auto g = true -> obj_get o (sf_ident (do_pk g)) = Some (FV u) -> valid u = false ->
  save_on (sqlite_methods json_text kw dl conv veq read E fresh) sem valid init g o db = (Ok tt, o', db') ->
  CodegenSpec.stores sem o' (do_pk g) kv ->
  numbered_already valid g o'
  /\ (forall r, sqlite_get_answers (X := X) json_text kw dl E sem g kv db r -> r = Err NoSuchObject).
Proof.
  intros U X json_text resolve sem valid init s g kw dl conv veq read strict E fresh d t D db db' o o' kv u DP KP NF OF Ha Hu Hv H Hst.
  destruct (saved_conn json_text resolve sem valid init s g kw dl conv veq read strict E fresh d t DP D db db' o o' kv KP NF OF H Hst)
    as (kv0 & D' & fs & K' & Kk & S & R & HC).
  destruct (C30_first_save _ _ _ _ _ _ _ _ _ _ _ _ _ _ _ _ _ _ _ _ S Ha R Hu Hv HC Hst) as (x & E1 & E2 & E3 & E4 & E5). cbn [w_db] in *.
  split; [exact E5|]. intros r Hr.
  apply (get_same (X := X) json_text resolve sem s g kw dl conv veq read strict E d t DP D db kv r KP Kk) in Hr as (w2 & Hr).
  apply (get_main (X := X) resolve sem s g dl kw Sqlite E _ _ S kv {| w_db := D; w_fate := [] |} r w2 Kk (rd_table _ _ _ _ _ _ _ _ _ _ _ _ _ R)) in Hr as [_ Hr].
  cbn [next_fate w_fate w_db] in Hr. destruct Hr as [[_ ->]|(y & vs & Hy & Hk & _)]; [reflexivity|]. destruct E4. exists y. auto.
Qed.
Print Assumptions C58_new_key.

(** Whatever happens, the database goes on to be one that has the model's tables; and a
    save of an object without relations that fails changes nothing. *)
Theorem C58_goes_on : forall U X json_text resolve sem valid init s g kw dl conv veq read strict E fresh d t D db
    (o : @object U (many X)),
  deployed json_text resolve sem s g kw dl conv veq read strict E d t ->
  keeps json_text E conv strict d D db -> numbers_fit json_text fresh d db -> object_fits json_text resolve sem valid init s g d t o ->
  forall r o' db', save_on (sqlite_methods json_text kw dl conv veq read E fresh) sem valid init g o db = (r, o', db') ->
  (exists D', keeps json_text E conv strict d D' db')
  /\ (forall e, r = Err e -> relation_fields resolve s = [] -> o' = o /\ db' = db).
Proof.
  intros U X json_text resolve sem valid init s g kw dl conv veq read strict E fresh d t D db o DP KP NF OF r o' db' H. split.
  - destruct (save_sim json_text resolve sem valid init s g kw dl conv veq read strict E fresh d t DP D db o KP NF OF) as (kv0 & (D' & fs & r' & K' & _) & _).
    rewrite H in K'. eauto.
  - intros e -> HN. unfold save_on in H.
    assert (Em : do_save_many g = []) by (rewrite (relations_eq resolve s g (dp_code _ _ _ _ _ _ _ _ _ _ _ _ _ _ DP)), HN; reflexivity).
    destruct (save_row_on (sqlite_methods json_text kw dl conv veq read E fresh) sem valid init g o db) as [[[x|e1|] o1] db1] eqn:Er.
    + rewrite Em in H. discriminate H.
    + injection H as <- <- <-.
      exact (row_refused json_text resolve sem valid init s g kw dl conv veq read strict E fresh d t DP D db o o1 e1 db1 KP NF OF Er).
    + discriminate H.
Qed.
Print Assumptions C58_goes_on.

(** A deleted object is got no more, the other objects are got as before; a delete that
    is refused changes nothing. *)
Theorem C58_delete : forall U X json_text resolve sem s g kw dl conv veq read strict E fresh d t D db
    (o : @object U (many X)) kv,
  deployed json_text resolve sem s g kw dl conv veq read strict E d t ->
  keeps json_text E conv strict d D db -> CodegenSpec.stores sem o (do_pk g) kv -> given_fits json_text t (do_pkcol g) kv ->
  forall r db', delete_on (sqlite_methods json_text kw dl conv veq read E fresh) sem g o db = (r, db') ->
  (exists D', keeps json_text E conv strict d D' db')
  /\ (r = Ok tt \/ (exists e, r = Err e) /\ db' = db)
  /\ (r = Ok tt -> forall x, sqlite_get_answers (X := X) json_text kw dl E sem g kv db' x <-> x = Err NoSuchObject)
  /\ (r = Ok tt -> forall id x, given_fits json_text t (do_pkcol g) id -> id <> kv ->
        (sqlite_get_answers (X := X) json_text kw dl E sem g id db' x <-> sqlite_get_answers json_text kw dl E sem g id db x)).
Proof.
  intros U X json_text resolve sem s g kw dl conv veq read strict E fresh d t D db o kv DP KP Hst Kk r db' H.
  destruct (delete_object_sim json_text resolve sem s g kw dl conv veq read strict E fresh d t DP D db o kv (numbered g VNull) KP Hst Kk)
    as ((D' & fs & r' & K' & A & HC) & R1 & R2).
  rewrite H in K', A, R2. cbn [fst snd] in K', A, R2. specialize (HC []). rewrite app_nil_r, delete_on_conn in HC.
  pose proof (is_setting json_text resolve sem s g kw dl conv veq read strict E d t DP VNull) as S.
  pose proof (rows_table json_text resolve sem s g kw dl conv veq read strict E d t DP D db KP) as T.
  destruct (C29_delete _ X _ _ _ _ _ _ _ _ _ _ _ {| w_db := D; w_fate := fs |} _ _ _ S T Hst Kk HC) as (_ & G1 & _ & G3 & _ & G5). cbn [w_db next_fate w_fate] in *.
  pose proof (fun id r => get_same (X := X) json_text resolve sem s g kw dl conv veq read strict E d t DP D' db' id r K') as GS.
  pose proof (fun id r => get_same (X := X) json_text resolve sem s g kw dl conv veq read strict E d t DP D db id r KP) as GS0.
  split; [eauto|]. split; [|split].
  - destruct r as [[]|e|]; [now left|right|now destruct R2]. split; [eauto|]. now apply (R1 e).
  - intros -> x. destruct r' as [[]|e'|]; try contradiction. rewrite (GS kv x Kk). split.
    + intros (w2 & Hx). exact (G1 eq_refl x w2 Hx).
    + intros ->. destruct G3 as [G3|[G3 _]]; [|discriminate G3].
      exists (after {| w_db := D'; w_fate := [] |} D'). apply (get_main (X := X) resolve sem s g dl kw Sqlite E _ _ S kv {| w_db := D'; w_fate := [] |} _ _ Kk G5).
      split; [reflexivity|]. cbn [next_fate w_fate w_db]. left. split; [|reflexivity]. rewrite G3. unfold rows_of_others.
      generalize (D (do_table g)). clear. induction l as [|x l IH]; [reflexivity|].
      cbn [filter]. destruct (has_key E (do_pkcol g) kv x) eqn:Ek; cbn [negb filter]; [exact IH|]. now rewrite Ek.
  - intros -> id x Kid Ne. destruct r' as [[]|e'|]; try contradiction. destruct G3 as [G3|[G3 _]]; [|discriminate G3].
    rewrite (GS id x Kid), (GS0 id x Kid).
    assert (EO6 : rows_of_others E g D' kv = rows_of_others E g D kv).
    { unfold rows_of_others in *. rewrite G3. generalize (D (do_table g)). clear. induction l as [|x l IH]; [reflexivity|].
      cbn [filter]. destruct (has_key E (do_pkcol g) kv x) eqn:Ek; cbn [negb filter]; [exact IH|]. rewrite Ek. cbn [negb]. now rewrite IH. }
    pose proof (other_rows g E _ (st_keys _ _ _ _ _ _ _ _ _ S) kv id D D' Kk Kid Ne T G5 EO6) as Hr.
    assert (X0 : forall l, filter (has_key E (do_pkcol g) id) l = [] <-> forall x, ~ (In x l /\ has_key E (do_pkcol g) id x = true)).
    { intros l. split.
      - intros Hl y Hy. apply filter_In in Hy. rewrite Hl in Hy. contradiction.
      - intros Hy. destruct (filter (has_key E (do_pkcol g) id) l) as [|y l'] eqn:El; [reflexivity|]. exfalso. apply (Hy y). apply filter_In. rewrite El. now left. }
    split; intros (w2 & Hx).
    + apply (get_main (X := X) resolve sem s g dl kw Sqlite E _ _ S id {| w_db := D'; w_fate := [] |} _ _ Kid G5) in Hx as [_ Hx]. cbn [next_fate w_fate w_db] in Hx.
      exists (after {| w_db := D; w_fate := [] |} D). apply (get_main (X := X) resolve sem s g dl kw Sqlite E _ _ S id {| w_db := D; w_fate := [] |} _ _ Kid T).
      split; [reflexivity|]. cbn [next_fate w_fate w_db]. destruct Hx as [[Hx ->]|(y & vs & Hy & Hk & Hvs & ->)].
      * left. split; [|reflexivity]. apply X0. intros y Hy. apply (proj1 (X0 _) Hx y). now apply Hr.
      * right. exists y, vs. destruct (proj1 (Hr y) (conj Hy Hk)). auto.
    + apply (get_main (X := X) resolve sem s g dl kw Sqlite E _ _ S id {| w_db := D; w_fate := [] |} _ _ Kid T) in Hx as [_ Hx]. cbn [next_fate w_fate w_db] in Hx.
      exists (after {| w_db := D'; w_fate := [] |} D'). apply (get_main (X := X) resolve sem s g dl kw Sqlite E _ _ S id {| w_db := D'; w_fate := [] |} _ _ Kid G5).
      split; [reflexivity|]. cbn [next_fate w_fate w_db]. destruct Hx as [[Hx ->]|(y & vs & Hy & Hk & Hvs & ->)].
      * left. split; [|reflexivity]. apply X0. intros y Hy. apply (proj1 (X0 _) Hx y). now apply Hr.
      * right. exists y, vs. destruct (proj2 (Hr y) (conj Hy Hk)). auto.
Qed.
Print Assumptions C58_delete.

(** The tables the macro records for a model, put in a schema with their references looked
    up, are the tables the model's code needs. *)
Theorem C58_model : forall U json_text (resolve : resolver) (sem : ty -> codec U) s main ms types g found d t,
  compiles resolve s -> own_names resolve -> model_macro resolve s = Ok (main :: ms, types, g) ->
  known_kept found -> (forall f, In f (row_fields resolve s) -> field_known resolve sem found f) ->
  In (t_name main, t) (a_tables d) -> as_recorded found main t ->
  (forall m, In m ms -> exists rt, In (t_name m, rt) (a_tables d) /\ as_recorded found m rt) ->
  (forall c, In c (t_cols t) -> upper (c_name c) <> "ROWID"%string) ->
  model_in json_text resolve sem s g d t.
Proof.
  intros U json_text resolve sem s main ms types g found d t Hc Ho Hm KK FK Ht [A1 A2] Hms Hrow.
  destruct (C46_table _ _ _ _ _ Hc Hm) as (m1 & ms1 & E1 & _ & _ & _ & F1). injection E1 as <- <-.
  destruct (C47_table _ _ _ _ _ Hc Hm) as (m1 & ms1 & E1 & N1 & _ & F2 & (pkc & P1 & P2 & P3)). injection E1 as <- <-.
  destruct (C47_type _ _ _ _ _ Hc Ho Hm) as (m1 & ms1 & E1 & F3). injection E1 as <- <-.
  assert (Hg : impl_dbobject resolve s = Ok g). { unfold model_macro in Hm. inv_ok Hm. inv_ok Hm. inversion Hm; subst. assumption. }
  destruct (C31_key _ _ _ Hg) as (K1 & K2 & K3 & K4).
  assert (Hauto : forall f a, In f (row_fields resolve s) -> wraps resolve "AutoPk" (sf_ty f) a -> f = do_pk g).
  { intros f a Hf Hw. apply (C31_automatic_fields _ _ _ Hc Hg f a); [|assumption]. unfold row_fields in Hf. now apply filter_In in Hf. }
  assert (Hty : forall f c0 c, recorded resolve (do_pk g) f c0 -> In f (row_fields resolve s) ->
      ((forall r, spells resolve (sf_ty f) r -> c_type c0 = KnownId (TyId (rsqltype r)))
       /\ (forall a, CodegenSpec.refers resolve (sf_ty f) a -> c_type c0 = Deferred (PK (strip_raw (last_ident a))))) ->
      column_as_recorded found c0 c -> column_for sem g f c).
  { intros f c0 c [] Hf [T1 T2] (B1 & B2 & B3 & B4 & B5). constructor.
    - congruence.
    - unfold same_type in B2. rewrite B2. destruct (FK f Hf) as [(r & Hr & Er)|(a & Ha & Er)].
      + rewrite (T1 r Hr), Er. exact (KK _).
      + rewrite (T2 a Ha). exact Er.
    - rewrite B4. assumption.
    - rewrite B5, rec_auto. split.
      + intros (a & Ha). pose proof (Hauto f a Hf Ha) as ->. split; [reflexivity|]. apply K4. eauto.
      + intros [-> Ea]. now apply K4. }
  assert (F : Forall2 (fun f c0 => forall c, column_as_recorded found c0 c -> column_for sem g f c) (row_fields resolve s) (t_cols main)).
  { exact (forall2_and _ _ _ _ _ F2 F3 (fun f c0 Hf R0 T0 c B0 => Hty f c0 c R0 Hf T0 B0)). }
  constructor.
  - now rewrite <- N1.
  - split.
    + intros f Hf. destruct (forall2_in_l _ _ _ _ F Hf) as (c0 & Hc0 & H0). destruct (A1 c0 Hc0) as (c & Hcc & Hr). eauto.
    + intros c Hcc. destruct (A2 c Hcc) as (c0 & Hc0 & Hr). destruct (forall2_in_r _ _ _ _ F Hc0) as (f & Hf & H0). eauto.
  - intros f Hf. destruct (forall2_in_l _ _ _ _ F1 Hf) as (m & Hin & other & pc & owner & has & W & Hpc & Epc & Ec & O1 & O2 & O3 & _ & G1 & G2 & G3 & _ & Nm & Nau).
    destruct (Hms m Hin) as (rt & Hrt & [R1 R2]). exists rt. split.
    + rewrite Nm, N1 in Hrt. exact Hrt.
    + rewrite Ec in *. split; [|split].
      * intros n. split.
        -- intros (c & Hcc & <-). destruct (R2 c Hcc) as (c0 & [<-|[<-|[]]] & -> & _); auto.
        -- intros [-> | ->]; [destruct (R1 owner) as (c & Hcc & En & _)|destruct (R1 has) as (c & Hcc & En & _)]; cbn; auto; exists c; split; auto; congruence.
      * intros c Hcc. destruct (R2 c Hcc) as (c0 & H0 & _ & _ & _ & _ & ->). rewrite Forall_forall in Nau. now apply Nau.
      * intros v (c & Hcc & En & ty & Ty & V1 & V2 & V3 & V4 & V5).
        destruct (R1 owner (or_introl eq_refl)) as (c' & Hc' & B1 & B2 & B3 & B4 & B5).
        exists c'. split; [assumption|]. split; [congruence|]. 
        destruct (A2 c Hcc) as (c0 & Hc0 & D1 & D2 & D3 & D4 & D5).
        assert (c_type c0 = c_type pc /\ c_pk c0 = true) as [Q1 Q2].
        { destruct (forall2_in_r _ _ _ _ F Hc0) as (f0 & Hf0 & H0). specialize (H0 c (conj D1 (conj D2 (conj D3 (conj D4 D5))))). destruct H0.
          assert (f0 = do_pk g) as ->.
          { apply (distinct_ident s); [exact (proj1 Hc)|unfold row_fields in Hf0; now apply filter_In in Hf0|now destruct K1|congruence]. }
          assert (c_pk c0 = true) as Pc0 by (rewrite <- D4; now apply cf_pk).
          assert (In c0 (filter c_pk (t_cols main))) as I0 by now apply filter_In.
          assert (In pc (filter c_pk (t_cols main))) as I1 by now apply filter_In.
          rewrite P1 in I0, I1. destruct I0 as [<-|[]], I1 as [<-|[]]. auto. }
        assert (Vn : v <> VNull). { intros ->. destruct (V5 eq_refl) as [_ Y]. congruence. }
        exists ty. split; [unfold same_type in *; congruence|]. repeat (split; [assumption|]). intros ->. contradiction.
  - intros Ea. apply K4 in Ea as (a & Ha).
    assert (Hrf : In (do_pk g) (row_fields resolve s)).
    { unfold row_fields. apply filter_In. split; [now destruct K1|]. now rewrite (proj2 Hc _ K1). }
    assert (In (do_pk g) (st_fields s)) as Hin by now destruct K1.
    pose proof (dbobject_ok _ _ _ Hg) as [].
    destruct (verify_auto_ok resolve _ _ sh_verify (do_pk g) Hin) as (_ & a' & d0 & Hw & Hd & Hk); [apply wrapped_spec; eauto|].
    rewrite <- (deferred_wraps resolve _ _ _ Ho Hw (or_intror eq_refl)) in Hd.
    destruct (FK _ Hrf) as [(r & Hr & Er)|(b & Hb & Er)].
    + rewrite (spells_known _ _ _ Ho Hr) in Hd. inversion Hd; subst. rewrite Er. destruct Hk as [Hk|Hk]; inversion Hk; auto.
    + rewrite (refers_known _ _ _ Ho Hb) in Hd. inversion Hd; subst. destruct Hk as [Hk|Hk]; discriminate Hk.
  - exact Hrow.
Qed.
Print Assumptions C58_model.

(** ** A case *)
(** The schema of the posts: their blog, if any, is one that is stored. *)
Definition sv_key : AColumn :=
  {| c_name := "id"; c_type := KnownId (TyId TBigInt); c_nullable := false; c_pk := true; c_auto := true; c_unique := false; c_default := None; c_ref := None |}.
Definition sv_opt (n : string) (ty : SqlType) (r : option ARef) : AColumn :=
  {| c_name := n; c_type := KnownId (TyId ty); c_nullable := true; c_pk := false; c_auto := false; c_unique := false; c_default := None; c_ref := r |}.
Definition sv_table : ATable :=
  {| t_name := "posts"; t_cols := [sv_opt "blog" TBigInt (Some (RefLiteral {| rl_table := "Blog"; rl_column := "id" |})); sv_key;
                                   col "title" TText; sv_opt "type" TInt None] |}.
Definition sv_schema : ADB :=
  {| a_tables := [("Blog", {| t_name := "Blog"; t_cols := [sv_key] |}); ("posts", sv_table);
                  ("posts_tags_Many", {| t_name := "posts_tags_Many"; t_cols := [col "has" TInt; col "owner" TBigInt] |})]; a_types := [] |}.
Definition sv_col (n w : string) (nn pk : bool) : ecol :=
  {| k_name := n; k_type := [w]; k_notnull := nn; k_pk := pk; k_unique := false; k_default := None |}.
Definition sv_db (blogs posts tags : list row) : edb :=
  [("Blog", {| b_cols := [sv_col "id" "INTEGER" true true]; b_fks := []; b_strict := true; b_rows := blogs |});
   ("posts", {| b_cols := [sv_col "blog" "INTEGER" false false; sv_col "id" "INTEGER" true true; sv_col "title" "TEXT" true false; sv_col "type" "INTEGER" false false];
                b_fks := [{| fk_col := "blog"; fk_table := "Blog"; fk_ref := "id" |}]; b_strict := true; b_rows := posts |});
   ("posts_tags_Many", {| b_cols := [sv_col "has" "INTEGER" true false; sv_col "owner" "INTEGER" true false]; b_fks := []; b_strict := true; b_rows := tags |})]%string.
Example sv_usable : usable sv_schema.
Proof.
  constructor.
  - wf_tac.
  - fine_tac.
  - intros n t c f H Hc (r & Er & ->). cbn in H.
    destruct H as [[= <- <-]|[[= <- <-]|[[= <- <-]|[]]]]; cbn in Hc; repeat (destruct Hc as [<-|Hc]; [try discriminate Er|]); try destruct Hc.
    injection Er as <-. exists {| t_name := "Blog"; t_cols := [sv_key] |}, sv_key. cbn. auto 10.
Qed.
Ltac declared_tac := first
  [ solve [eexists; split; [left; reflexivity|repeat split]] | solve [eexists; split; [right; left; reflexivity|repeat split]]
  | solve [eexists; split; [right; right; left; reflexivity|repeat split]] | solve [eexists; split; [right; right; right; left; reflexivity|repeat split]] ].
Example sv_kept : keeps Some st_engine ex_conv true sv_schema (fun _ => []) (sv_db [] [] []).
Proof.
  constructor.
  - repeat constructor.
  - intros n t H. cbn in H. destruct H as [[= <- <-]|[[= <- <-]|[[= <- <-]|[]]]]; (eexists; split; [reflexivity|]; split; [|intros r []]);
      (split; [reflexivity|]; split; [repeat constructor; cbn; intuition discriminate|]; split; [|split]).
    + intros c [<-|[]]. declared_tac.
    + intros c [<-|[]]. declared_tac.
    + intros f. split; [intros []|]. intros (c & [<-|[]] & (r & Er & _)); discriminate Er.
    + intros c [<-|[<-|[<-|[<-|[]]]]]; declared_tac.
    + intros c [<-|[<-|[<-|[<-|[]]]]]; declared_tac.
    + intros f. split.
      * intros [<-|[]]. exists (sv_opt "blog" TBigInt (Some (RefLiteral {| rl_table := "Blog"; rl_column := "id" |}))). split; [now left|]. eexists. split; reflexivity.
      * intros (c & [<-|[<-|[<-|[<-|[]]]]] & (r & Er & ->)); try discriminate Er. injection Er as <-. now left.
    + intros c [<-|[<-|[]]]; declared_tac.
    + intros c [<-|[<-|[]]]; declared_tac.
    + intros f. split; [intros []|]. intros (c & [<-|[<-|[]]] & (r & Er & _)); discriminate Er.
  - intros n. unfold sv_db. cbn [mget]. repeat (destruct (keqb n _); [cbn; constructor|]). reflexivity.
  - constructor.
  - intros n b H. unfold sv_db in H. cbn [mget] in H. destruct (keqb n "Blog"%string) eqn:E1; [injection H as <-; right; reflexivity|].
    destruct (keqb n "posts"%string) eqn:E2; [left; apply keqb_eq in E2; subst n; exists sv_table; cbn; auto|].
    destruct (keqb n "posts_tags_Many"%string); [injection H as <-; right; reflexivity|discriminate H].
  - constructor; [intros; now destruct i|]. intros n t c f r x _ _ _ [].
Qed.
Lemma sv_keys v : given_fits Some sv_table "id" v -> exists z, v = VBigInt z /\ (- 2 ^ 63 <= z < 2 ^ 63)%Z.
Proof.
  intros (c & [<-|[<-|[<-|[<-|[]]]]] & E1 & ty & E2 & K1 & V1 & C1 & _ & N1); try discriminate E1.
  injection E2 as <-. destruct v; cbn in K1, V1; try (destruct K1 as [K1|K1]; discriminate K1).
  - destruct (N1 eq_refl) as [X _]. discriminate X.
  - eexists. split; [reflexivity|lia].
Qed.
Example sv_deployed : deployed Some table_resolve post_sem post post_code ddl_kw sqlite_like ex_conv st_veq ex_read true st_engine sv_schema sv_table.
Proof.
  destruct C31_case as (H1 & H2 & H3 & H4 & H5 & H6 & H7 & H8). constructor.
  - exact H1.
  - exact H2.
  - apply st_ok.
  - intros z. unfold equal, compare3. cbn. now rewrite Z.compare_refl.
  - apply sv_usable.
  - exact (st_names _ _ _ _ _ _ _ _ _ post_setting).
  - constructor.
    + right. now left.
    + split.
      * intros f Hf. vm_compute in Hf.
        destruct Hf as [<-|[<-|[<-|[<-|[]]]]]; [exists (col "title" TText)|exists sv_key|exists (sv_opt "type" TInt None)|
          exists (sv_opt "blog" TBigInt (Some (RefLiteral {| rl_table := "Blog"; rl_column := "id" |})))];
          (split; [cbn; auto|]); (constructor; [reflexivity|reflexivity|vm_compute; intuition congruence|vm_compute; intuition congruence]).
      * intros c Hc. cbn in Hc. destruct Hc as [<-|[<-|[<-|[<-|[]]]]];
          [exists (nth 3 (row_fields table_resolve post) (do_pk post_code))|exists (nth 1 (row_fields table_resolve post) (do_pk post_code))
          |exists (nth 0 (row_fields table_resolve post) (do_pk post_code))|exists (nth 2 (row_fields table_resolve post) (do_pk post_code))];
          (split; [vm_compute; auto 10|]); (constructor; [reflexivity|reflexivity|vm_compute; intuition congruence|vm_compute; intuition congruence]).
    + intros f Hf. vm_compute in Hf. destruct Hf as [<-|[]]. eexists. split; [right; right; left; reflexivity|]. split; [|split].
      * intros n. split.
        -- intros (c & [<-|[<-|[]]] & <-); cbn; auto.
        -- intros [-> | ->]; unfold has_column; cbn; [exists (col "owner" TBigInt)|exists (col "has" TInt)]; auto.
      * intros c [<-|[<-|[]]]; reflexivity.
      * intros v Hv. rewrite H6 in Hv. apply sv_keys in Hv as (z & -> & Hz). exists (col "owner" TBigInt). split; [right; now left|]. split; [reflexivity|].
        exists TBigInt. split; [reflexivity|]. split; [now right|]. split; [cbn; lia|]. split; [intros (? & ? & Y); discriminate Y|]. split; discriminate.
    + intros _. right. reflexivity.
    + intros c [<-|[<-|[<-|[<-|[]]]]]; discriminate.
  - rewrite H6. intros x y Hx Hy. apply sv_keys in Hx as (a & -> & _). apply sv_keys in Hy as (c & -> & _). unfold compare3. cbn.
    destruct (Z.compare_spec a c) as [Hx|Hx|Hx]; split; intros Hy; try congruence; inversion Hy; subst; lia.
Qed.
(** The posts' tables are as recorded, once the keys of blogs and tags are found. *)
Definition sv_found (y : DeferredSqlType) : DeferredSqlType :=
  match y with Deferred (PK "Blog") => KnownId (TyId TBigInt) | Deferred (PK "Tag") => KnownId (TyId TInt) | _ => y end.
Example C58_model_case : exists main ms types, model_macro table_resolve post = Ok (main :: ms, types, post_code)
  /\ compiles table_resolve post /\ own_names table_resolve /\ known_kept sv_found
  /\ (forall f, In f (row_fields table_resolve post) -> field_known table_resolve post_sem sv_found f)
  /\ In (t_name main, sv_table) (a_tables sv_schema) /\ as_recorded sv_found main sv_table
  /\ (forall m, In m ms -> exists rt, In (t_name m, rt) (a_tables sv_schema) /\ as_recorded sv_found m rt)
  /\ model_in Some table_resolve post_sem post post_code sv_schema sv_table.
Proof.
  pose proof (proj1 C31_case) as H1. pose proof (proj1 C47_case) as H2.
  do 3 eexists. split; [vm_compute; reflexivity|]. split; [exact H1|]. split; [exact H2|]. split; [intros ty; reflexivity|]. split.
  { intros f Hf. vm_compute in Hf. destruct Hf as [<-|[<-|[<-|[<-|[]]]]].
    - left. exists RString. split; [|reflexivity]. constructor.
    - left. exists (RAutoPk (RInt I64)). split; [|reflexivity]. econstructor; [|constructor].
      do 3 eexists. split; [reflexivity|]. split; [vm_compute; reflexivity|]. repeat eexists.
    - left. exists (ROption (RInt I32)). split; [|reflexivity]. econstructor; [|constructor].
      do 3 eexists. split; [reflexivity|]. split; [vm_compute; reflexivity|]. repeat eexists.
    - right. exists (bare "Blog"). split; [|reflexivity]. right. exists (t_gen "ForeignKey" (bare "Blog")).
      split; (do 3 eexists; split; [reflexivity|]; split; [vm_compute; reflexivity|]; repeat eexists). }
  split; [right; now left|]. split.
  { unfold as_recorded, column_as_recorded. split; cbn [t_cols sv_table].
    - intros c0 [<-|[<-|[<-|[<-|[]]]]]; declared_tac.
    - intros c0 [<-|[<-|[<-|[<-|[]]]]]; declared_tac. }
  split.
  { intros m [<-|[]]. eexists. split; [right; right; left; reflexivity|]. unfold as_recorded, column_as_recorded. split; cbn [t_cols].
    - intros c0 [<-|[<-|[]]]; declared_tac.
    - intros c0 [<-|[<-|[]]]; declared_tac. }
  exact (dp_model _ _ _ _ _ _ _ _ _ _ _ _ _ _ sv_deployed).
Qed.
(** A post as it is made: no key yet, two tags, perhaps a blog. *)
Definition sv_post (id : option Z) (title : string) (blog : option Z) (m : many Z) : @object rvalue (many Z) :=
  [ ("title", FV (existT rust RString title)); ("tags", FM m); ("id", FV (existT rust (RAutoPk (RInt I64)) id));
    ("r#type", FV (existT rust (ROption (RInt I32)) None)); ("blog", FV (existT rust (ROption (RInt I64)) blog)) ].
Notation sv_M := (sqlite_methods Some ddl_kw sqlite_like ex_conv st_veq ex_read st_engine st_fresh).
Notation sv_save := (save_on sv_M post_sem rv_valid rv_init post_code).
Example sv_fits : forall blog, blog = None \/ blog = Some 3%Z ->
  object_fits Some table_resolve post_sem rv_valid rv_init post post_code sv_schema sv_table (sv_post None "hello" blog ex_new_tags).
Proof.
  intros blog Hb. constructor.
  - intros f v Hf Ho (u & Hu & Ht). vm_compute in Hf.
    destruct Hf as [<-|[<-|[<-|[<-|[]]]]].
    + vm_compute in Hu. injection Hu as <-. vm_compute in Ht. injection Ht as <-. exists (col "title" TText). split; [cbn; auto|]. split; [reflexivity|].
      exists TText. repeat split; try discriminate; try (now right). intros (? & ? & Y). discriminate Y.
    + exfalso. destruct (Ho eq_refl eq_refl) as (_ & u2 & Hu2 & Hv2). vm_compute in Hu2. injection Hu2 as <-. discriminate Hv2.
    + vm_compute in Hu. injection Hu as <-. vm_compute in Ht. injection Ht as <-. exists (sv_opt "type" TInt None). split; [cbn; auto|]. split; [reflexivity|].
      exists TInt. split; [reflexivity|]. split; [now left|]. split; [exact Logic.I|]. split; [intros (? & ? & Y); discriminate Y|]. split; [discriminate|auto].
    + exists (sv_opt "blog" TBigInt (Some (RefLiteral {| rl_table := "Blog"; rl_column := "id" |}))). split; [cbn; auto|]. split; [reflexivity|].
      exists TBigInt. split; [reflexivity|]. destruct Hb as [-> | ->]; vm_compute in Hu; injection Hu as <-; vm_compute in Ht; injection Ht as <-.
      * split; [now left|]. split; [exact Logic.I|]. split; [intros (? & ? & Y); discriminate Y|]. split; [discriminate|auto].
      * split; [now right|]. split; [cbn; lia|]. split; [intros (? & ? & Y); discriminate Y|]. split; discriminate.
  - intros u _ Hu _. vm_compute in Hu. injection Hu as <-. intros kv Hk. destruct C31_case as (_ & _ & _ & _ & _ & H6 & _). rewrite H6 in Hk.
    apply sv_keys in Hk as (z & -> & Hz). exists (existT rust (RAutoPk (RInt I64)) (Some z)). split; [|split; reflexivity].
    transitivity (@Ok unit tt, existT rust (RAutoPk (RInt I64)) (Some (wrap I64 z))); [reflexivity|]. rewrite (wrap_id I64 z); [reflexivity|cbn; lia].
  - intros f Hf. vm_compute in Hf. destruct Hf as [<-|[]]. exists ex_new_tags. split; [reflexivity|]. split; [now left|]. split; [|constructor].
    intros rt H. cbn in H. destruct H as [H|[H|[H|[]]]]; try discriminate H. injection H as <-.
    repeat constructor; (exists (col "has" TInt); split; [now left|]; split; [reflexivity|]; exists TInt; split; [reflexivity|]; split; [now right|];
      split; [cbn; lia|]; split; [intros (? & ? & Y); discriminate Y|]; split; discriminate).
Qed.
Example sv_numbers : numbers_fit Some st_fresh sv_schema (sv_db [] [] []).
Proof.
  intros n t b c H Hb Hc Ha. exists (VBigInt (st_fresh b)). cbn in H.
  destruct H as [[= <- <-]|[[= <- <-]|[[= <- <-]|[]]]]; vm_compute in Hb; injection Hb as <-; cbn in Hc;
    repeat (destruct Hc as [<-|Hc]; [try discriminate Ha|]); try destruct Hc;
    (split; [|reflexivity]; exists TBigInt; split; [reflexivity|]; split; [now right|]; split; [cbn; lia|]; split; [intros (? & ? & Y); discriminate Y|]; split; discriminate).
Qed.
(** A post is stored with its tags and got back under its new key; one of a blog that is
    not there is refused; deleted, the post is there no more. *)
Example C58_case : let saved := sv_post (Some 1%Z) "hello" None (ex_tags_of 1 [] []) in
  let full := sv_db [] [[("title", LText "hello"); ("type", LNull); ("blog", LNull); ("id", LInteger 1)]]
                (rev [[("owner", LInteger 1); ("has", LInteger 20)]; [("owner", LInteger 1); ("has", LInteger 30)]]) in
  sv_save (sv_post None "hello" None ex_new_tags) (sv_db [] [] []) = (Ok tt, saved, full)
  /\ CodegenSpec.stores post_sem saved (do_pk post_code) (VBigInt 1) /\ fields_survive table_resolve post_sem post saved
  /\ (exists e, sv_save (sv_post None "hello" (Some 3%Z) ex_new_tags) (sv_db [] [] []) = (Err e, sv_post None "hello" (Some 3%Z) ex_new_tags, sv_db [] [] []))
  /\ (exists m, delete_on sv_M post_sem post_code saved full = (Ok tt, m) /\ mget "posts"%string m = mget "posts"%string (sv_db [] [] [])).
Proof.
  cbv zeta. split; [vm_compute; reflexivity|]. split; [exists (existT rust (RAutoPk (RInt I64)) (Some 1%Z)); split; vm_compute; reflexivity|].
  split; [survive|]. split; [exists (DbError 1); vm_compute; reflexivity|]. eexists. split; vm_compute; reflexivity.
Qed.
Example C58_case_got : forall o' db', sv_save (sv_post None "hello" None ex_new_tags) (sv_db [] [] []) = (Ok tt, o', db') ->
  exists o2, sqlite_get_answers Some ddl_kw sqlite_like st_engine post_sem post_code (VBigInt 1) db' (Ok o2) /\ equal_objects table_resolve post o' o2.
Proof.
  intros o' db' H. destruct C58_case as (HC & Hst & FS & _). rewrite H in HC. injection HC as -> ->.
  destruct (C58_round_trip_partial _ _ _ _ _ _ _ _ _ _ _ _ _ _ _ _ _ _ _ _ _ _ _ _ _ sv_deployed sv_kept sv_numbers (sv_fits None (or_introl eq_refl)) H Hst FS) as [(r & R1) R2].
  - intros (_ & u & Hu & Hv). vm_compute in Hu. injection Hu as <-. discriminate Hv.
  - destruct (R2 r R1) as (o2 & -> & EQ). eauto.
Qed.

(** A post that has a number but no row, say because it was deleted meanwhile: the save
    reports success, stores nothing, and the post is not there. *)
Theorem C58_missing_row_refuted : let o := sv_post (Some 5%Z) "lost" None (ex_tags_of 5 [] []) in let db := sv_db [] [] [] in
  deployed Some table_resolve post_sem post post_code ddl_kw sqlite_like ex_conv st_veq ex_read true st_engine sv_schema sv_table
  /\ keeps Some st_engine ex_conv true sv_schema (fun _ => []) db /\ numbers_fit Some st_fresh sv_schema db
  /\ object_fits Some table_resolve post_sem rv_valid rv_init post post_code sv_schema sv_table o
  /\ sv_save o db = (Ok tt, o, db) /\ CodegenSpec.stores post_sem o (do_pk post_code) (VBigInt 5)
  /\ forall r, sqlite_get_answers (X := Z) Some ddl_kw sqlite_like st_engine post_sem post_code (VBigInt 5) db r -> r = Err NoSuchObject.
Proof.
  cbv zeta. split; [exact sv_deployed|]. split; [exact sv_kept|]. split; [exact sv_numbers|].
  assert (K5 : given_fits Some sv_table "id" (VBigInt 5)).
  { exists sv_key. split; [cbn; auto|]. split; [reflexivity|]. exists TBigInt. split; [reflexivity|]. split; [now right|]. split; [cbn; lia|].
    split; [intros (? & ? & Y); discriminate Y|]. split; discriminate. }
  assert (S5 : CodegenSpec.stores post_sem (sv_post (Some 5%Z) "lost" None (ex_tags_of 5 [] [])) (do_pk post_code) (VBigInt 5)).
  { exists (existT rust (RAutoPk (RInt I64)) (Some 5%Z)). split; vm_compute; reflexivity. }
  split; [|split; [vm_compute; reflexivity|]; split; [exact S5|]].
  - constructor.
    + intros f v Hf _ (u & Hu & Ht). vm_compute in Hf.
      destruct Hf as [<-|[<-|[<-|[<-|[]]]]]; vm_compute in Hu; injection Hu as <-; vm_compute in Ht; injection Ht as <-.
      * exists (col "title" TText). split; [cbn; auto|]. split; [reflexivity|]. exists TText. repeat split; try discriminate; try (now right). intros (? & ? & Y). discriminate Y.
      * exact K5.
      * exists (sv_opt "type" TInt None). split; [cbn; auto|]. split; [reflexivity|].
        exists TInt. split; [reflexivity|]. split; [now left|]. split; [exact Logic.I|]. split; [intros (? & ? & Y); discriminate Y|]. split; [discriminate|auto].
      * exists (sv_opt "blog" TBigInt (Some (RefLiteral {| rl_table := "Blog"; rl_column := "id" |}))). split; [cbn; auto|]. split; [reflexivity|].
        exists TBigInt. split; [reflexivity|]. split; [now left|]. split; [exact Logic.I|]. split; [intros (? & ? & Y); discriminate Y|]. split; [discriminate|auto].
    + intros u _ Hu Hv. vm_compute in Hu. injection Hu as <-. discriminate Hv.
    + intros f Hf. vm_compute in Hf. destruct Hf as [<-|[]]. exists (ex_tags_of 5 [] []). split; [reflexivity|]. split; [right|split; constructor].
      split; [|exists (VBigInt 5); split; [exact S5|]; split; reflexivity].
      intros _. split; [vm_compute; reflexivity|]. exists (existT rust (RAutoPk (RInt I64)) (Some 5%Z)). split; vm_compute; reflexivity.
  - intros r Hr. destruct C31_case as (_ & _ & _ & _ & _ & H6 & _).
    apply (get_same (X := Z) _ _ _ _ _ _ _ _ _ _ _ _ _ _ sv_deployed (fun _ => []) _ _ _ sv_kept) in Hr as (w2 & Hr); [|now rewrite H6].
    apply (get_main (X := Z) _ _ _ _ _ _ _ _ _ _ (is_setting _ _ _ _ _ _ _ _ _ _ _ _ _ _ sv_deployed VNull) (VBigInt 5) {| w_db := fun _ => []; w_fate := [] |}) in Hr as [_ Hr];
      [|now rewrite H6|constructor].
    cbn [next_fate w_fate w_db] in Hr. destruct Hr as [[_ ->]|(y & vs & [] & _)]. reflexivity.
Qed.
Print Assumptions C58_missing_row_refuted.
