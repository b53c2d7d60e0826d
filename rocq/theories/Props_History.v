(** Property C59: objects over any history of saves and deletes on a deployed SQLite
    database. *)
From Coq Require Import Permutation.
From Verif Require Import Base SqlVal Adb AdbSpec Conv ConvProofs Sql SqlStmt Query QuerySpec Stmt StmtSpec LiteralSpec Ddl DdlSpec SqliteSem SqliteData
  Backend BackendSpec MigrateSpec DataCalls StoredSpec Conn ConnProofs Many ManyProofs Codegen CodegenSpec CodegenProofs Obj ObjSpec ObjProofs
  Props_Query Props_Models Props_Objects Props_Schema Props_TursoScript Props_Migrations Props_Migrate Props_Stored Saved SavedSpec SavedProofs
  Props_Saved LoadedSpec HistorySpec HistoryProofs.

Section Rows.
Context {U X : Type}.
Variable json_text : string -> option string.
Variable resolve : bool -> list string -> string -> option string.
Variable sem : ty -> codec U.
Variable valid : U -> bool.
Variable init : U -> SqlVal -> outcome unit * U.
Variable s : sdef.
Variable g : dbobject.
Variable kw : string -> bool.
Variable dl : dialect.
Variable conv : bool -> list string -> lvalue -> option lvalue.
Variable veq : lvalue -> lvalue -> bool.
Variable read : bool -> string -> f64.
Variable strict : bool.
Variable E : engine.
Variable d : ADB.
Variable t : ATable.
Hypothesis DP : deployed json_text resolve sem s g kw dl conv veq read strict E d t.
Notation keeps := (keeps json_text E conv strict d).
Notation K := (given_fits json_text t (do_pkcol g)).
Notation get := (sqlite_get_answers (X := X) json_text kw dl E sem g).

(** What [get] says is said by the rows with the key. *)
Lemma get_rows D db id r : keeps D db -> K id ->
  (get id db r <-> (~ row_exists E g D id /\ r = Err NoSuchObject)
     \/ exists x vs, In x (D (do_table g)) /\ has_key E (do_pkcol g) id x = true
          /\ columns_of (map fst (dr_columns (do_result g))) x = Some vs /\ r = object_of_row (X := X) sem g vs).
Proof.
  intros KP Kid. rewrite (get_same (X := X) json_text resolve sem s g kw dl conv veq read strict E d t DP D db id r KP Kid).
  pose proof (is_setting json_text resolve sem s g kw dl conv veq read strict E d t DP VNull) as S.
  pose proof (rows_table json_text resolve sem s g kw dl conv veq read strict E d t DP D db KP) as T.
  assert (X0 : filter (has_key E (do_pkcol g) id) (D (do_table g)) = [] <-> ~ row_exists E g D id).
  { split.
    - intros Hl (y & Hy & Hk). assert (Hi : In y (filter (has_key E (do_pkcol g) id) (D (do_table g)))) by now apply filter_In. rewrite Hl in Hi. contradiction.
    - intros Hy. destruct (filter (has_key E (do_pkcol g) id) (D (do_table g))) as [|y l'] eqn:El; [reflexivity|]. exfalso. apply Hy. exists y. apply filter_In. rewrite El. now left. }
  split.
  - intros (w2 & Hx). apply (get_main (X := X) resolve sem s g dl kw Sqlite E _ _ S id {| w_db := D; w_fate := [] |} _ _ Kid T) in Hx as [_ Hx].
    cbn [next_fate w_fate w_db] in Hx. rewrite X0 in Hx. exact Hx.
  - intros Hx. exists (after {| w_db := D; w_fate := [] |} D).
    apply (get_main (X := X) resolve sem s g dl kw Sqlite E _ _ S id {| w_db := D; w_fate := [] |} _ _ Kid T). split; [reflexivity|].
    cbn [next_fate w_fate w_db]. rewrite X0. exact Hx.
Qed.
(** The rows with a key decide. *)
Lemma same_rows D db D' db' id : keeps D db -> keeps D' db' -> K id ->
  (forall x, In x (D' (do_table g)) /\ has_key E (do_pkcol g) id x = true <-> In x (D (do_table g)) /\ has_key E (do_pkcol g) id x = true) ->
  (row_exists E g D' id <-> row_exists E g D id) /\ (forall r, get id db' r <-> get id db r).
Proof.
  intros KP KP' Kid H. assert (R : row_exists E g D' id <-> row_exists E g D id) by (unfold row_exists; split; intros (x & Hx); exists x; now apply H).
  split; [exact R|]. intros r. rewrite (get_rows D db id r KP Kid), (get_rows D' db' id r KP' Kid), R.
  split; (intros [Hx|(x & vs & Hi & Hk & Hr)]; [now left|right; exists x, vs]); destruct (H x) as [H1 H2]; [destruct (H1 (conj Hi Hk))|destruct (H2 (conj Hi Hk))]; auto.
Qed.
(** The rows with other keys stay. *)
Lemma other_same D db D' db' kv id : keeps D db -> keeps D' db' -> K kv -> K id -> id <> kv -> rows_of_others E g D' kv = rows_of_others E g D kv ->
  forall x, In x (D' (do_table g)) /\ has_key E (do_pkcol g) id x = true <-> In x (D (do_table g)) /\ has_key E (do_pkcol g) id x = true.
Proof.
  intros KP KP' Kk Kid Ne H.
  pose proof (rows_table json_text resolve sem s g kw dl conv veq read strict E d t DP D db KP) as T.
  pose proof (rows_table json_text resolve sem s g kw dl conv veq read strict E d t DP D' db' KP') as T'.
  exact (other_rows g E _ (dp_exact _ _ _ _ _ _ _ _ _ _ _ _ _ _ DP) kv id D D' Kk Kid Ne T T' H).
Qed.
Lemma row_got D db id : keeps D db -> K id -> row_exists E g D id ->
  exists vs, get id db (object_of_row (X := X) sem g vs).
Proof.
  intros KP Kid (x & Hx & Hk).
  pose proof (is_setting json_text resolve sem s g kw dl conv veq read strict E d t DP VNull) as S.
  pose proof (rows_table json_text resolve sem s g kw dl conv veq read strict E d t DP D db KP) as T.
  destruct (table_columns g E _ D x T Hx) as (vs & Hvs).
  exists vs. apply (get_rows D db id _ KP Kid). right. exists x, vs. auto.
Qed.
End Rows.

Lemma filter_all {A} (f : A -> bool) l : length (filter f l) = length l -> forall x, In x l -> f x = true.
Proof.
  induction l as [|a l IH]; intros H x Hx; [contradiction|]. cbn [filter length] in H.
  assert (L : length (filter f l) <= length l) by (clear; induction l; cbn; [lia|destruct (f a); cbn; lia]).
  destruct (f a) eqn:Ef; cbn [length] in H; [|lia]. destruct Hx as [<-|Hx]; [assumption|]. apply IH; [lia|assumption].
Qed.
Lemma filter_full {A} (f : A -> bool) l : (forall x, In x l -> f x = true) -> length (filter f l) = length l.
Proof. induction l as [|a l IH]; intros H; [reflexivity|]. cbn [filter]. rewrite (H a (or_introl eq_refl)). cbn. now rewrite IH; [|intros x Hx; apply H; now right]. Qed.

Section History.
Context {U X : Type}.
Variable json_text : string -> option string.
Variable resolve : bool -> list string -> string -> option string.
Variable sem : ty -> codec U.
Variable valid : U -> bool.
Variable init : U -> SqlVal -> outcome unit * U.
Variable kw : string -> bool.
Variable dl : dialect.
Variable conv : bool -> list string -> lvalue -> option lvalue.
Variable veq : lvalue -> lvalue -> bool.
Variable read : bool -> string -> f64.
Variable strict : bool.
Variable E : engine.
Variable fresh : etab -> Z.
Variable d : ADB.
Variable models : list model.
Hypothesis AD : all_deployed json_text resolve sem kw dl conv veq read strict E d models.
Hypothesis AP : apart resolve models.
Notation object := (@object U (many X)).
Notation keeps := (keeps json_text E conv strict d).
Notation knowledge := (@knowledge U X).
Notation K m := (given_fits json_text (mo_tab m) (do_pkcol (mo_code m))).
Notation found := (@found U X json_text resolve sem kw dl E).
Notation step := (@step U X json_text resolve sem valid init kw dl conv veq read E fresh d).
Notation gets := (@gets U X json_text sem kw dl E).

(** The rows agree with what is known. *)
Definition right (D : Sql.db) (db : edb) (m : model) (k : SqlVal) (x : status object) : Prop :=
  found m k db x /\ match x with Absent => ~ row_exists E (mo_code m) D k
    | Present o => row_exists E (mo_code m) D k
        /\ forall r, In r (D (table_name m)) -> has_key E (do_pkcol (mo_code m)) k r = true -> is_row_of resolve sem (mo_decl m) (mo_code m) o r
    | Unclear => True end.
Definition inv (D : Sql.db) (db : edb) (kn : knowledge) : Prop :=
  keeps D db /\ forall m k, In m models -> K m k -> right D db m k (kn (table_name m) k).

Lemma absent_right D db m k : In m models -> keeps D db -> K m k -> ~ row_exists E (mo_code m) D k -> right D db m k Absent.
Proof.
  intros Hm KP Kk N. split; [|exact N]. intros r. unfold HistorySpec.gets.
  rewrite (get_rows json_text resolve sem (mo_decl m) (mo_code m) kw dl conv veq read strict E d (mo_tab m) (AD m Hm) D db k r KP Kk).
  split; [|auto]. intros [[_ ->]|(x & vs & Hx & Hk & _)]; [reflexivity|]. exfalso. apply N. exists x. auto.
Qed.
Lemma present_right D db m k o : In m models -> keeps D db -> K m k -> found m k db (Present o) ->
  (forall r, In r (D (table_name m)) -> has_key E (do_pkcol (mo_code m)) k r = true -> is_row_of resolve sem (mo_decl m) (mo_code m) o r) ->
  right D db m k (Present o).
Proof.
  intros Hm KP Kk F IR. split; [exact F|]. split; [|exact IR]. destruct F as [(r & Hr) F]. destruct (F r Hr) as (o2 & -> & _). unfold HistorySpec.gets in Hr.
  rewrite (get_rows json_text resolve sem (mo_decl m) (mo_code m) kw dl conv veq read strict E d (mo_tab m) (AD m Hm) D db k _ KP Kk) in Hr.
  destruct Hr as [[_ Hr]|(x & vs & Hx & Hk & _)]; [discriminate Hr|]. exists x. auto.
Qed.
Lemma right_moves D db D' db' m k x : In m models -> keeps D db -> keeps D' db' -> K m k ->
  (forall y, In y (D' (table_name m)) /\ has_key E (do_pkcol (mo_code m)) k y = true <-> In y (D (table_name m)) /\ has_key E (do_pkcol (mo_code m)) k y = true) ->
  right D db m k x -> right D' db' m k x.
Proof.
  intros Hm KP KP' Kk H [F R].
  destruct (same_rows (X := X) json_text resolve sem (mo_decl m) (mo_code m) kw dl conv veq read strict E d (mo_tab m) (AD m Hm) D db D' db' k KP KP' Kk H) as [H1 H2].
  destruct x as [|o|]; [| |split; exact Logic.I]; cbn in F, R |- *.
  - split; [|now rewrite H1]. intros r. unfold HistorySpec.gets. rewrite H2. apply F.
  - split; [|split; [now rewrite H1|]; intros y Hy Hk; destruct (proj1 (H y) (conj Hy Hk)); now apply (proj2 R)]. cbn. unfold HistorySpec.gets in *. destruct F as [(r & Hr) F]. split; [exists r; now apply H2|].
    intros r2 Hr2. apply F. now apply H2.
Qed.

(** What a call of one model does to the rows, but for those with one key. *)
Definition only (m : model) (k : SqlVal) (D D' : Sql.db) : Prop :=
  (forall n, n <> table_name m -> (forall f, In f (relation_fields resolve (mo_decl m)) -> n <> relation_name (table_name m) f) -> D' n = D n)
  /\ rows_of_others E (mo_code m) D' k = rows_of_others E (mo_code m) D k.
Lemma others_right D db D' db' kn m k m' i : In m models -> In m' models -> keeps D db -> keeps D' db' -> K m k -> K m' i -> only m k D D' ->
  (table_name m' <> table_name m \/ i <> k) -> right D db m' i (kn (table_name m') i) -> right D' db' m' i (kn (table_name m') i).
Proof.
  intros Hm Hm' KP KP' Kk Ki [O1 O2] Ne R. apply (right_moves D db D' db' m' i _ Hm' KP KP' Ki); [|exact R].
  destruct (string_dec (table_name m') (table_name m)) as [Et|Nt].
  - apply (AP m' m Hm' Hm) in Et as ->. destruct Ne as [Ne|Ne]; [contradiction|].
    exact (other_same json_text resolve sem (mo_decl m) (mo_code m) kw dl conv veq read strict E d (mo_tab m) (AD m Hm) D db D' db' k i KP KP' Kk Ki Ne O2).
  - rewrite (O1 (table_name m') Nt); [reflexivity|]. exact (proj2 (AP m' m Hm' Hm)).
Qed.
Lemma key_dec m x y : In m models -> K m x -> K m y -> x = y \/ x <> y.
Proof.
  intros Hm Kx Ky. pose proof (dp_exact _ _ _ _ _ _ _ _ _ _ _ _ _ _ (AD m Hm) x y Kx Ky) as Ex.
  destruct (compare3 E CEq x y) as [[|]|]; [left; now apply Ex|right; intros F; apply Ex in F; discriminate F..].
Qed.
Lemma inv_learnt D db D' db' kn kn' m k x : In m models -> inv D db kn -> keeps D' db' -> K m k -> only m k D D' ->
  learnt kn m k x kn' -> right D' db' m k x -> inv D' db' kn'.
Proof.
  intros Hm [KP I] KP' Kk O [L1 L2] R. split; [assumption|]. intros m' i Hm' Ki.
  assert (C : table_name m' = table_name m /\ i = k \/ (table_name m' <> table_name m \/ i <> k)).
  { destruct (string_dec (table_name m') (table_name m)) as [Et|Nt]; [|auto]. pose proof (proj1 (AP m' m Hm' Hm) Et). subst m'.
    destruct (key_dec m i k Hm Ki Kk); auto. }
  destruct C as [[Et ->]|Ne].
  - pose proof (proj1 (AP m' m Hm' Hm) Et). subst m'. now rewrite L1.
  - rewrite (L2 _ _ Ne). apply (others_right D db D' db' kn m k m' i); auto.
Qed.
Lemma inv_same D db D' db' kn m k : In m models -> inv D db kn -> keeps D' db' -> K m k -> only m k D D' ->
  right D' db' m k (kn (table_name m) k) -> inv D' db' kn.
Proof. intros Hm I KP' Kk O R. apply (inv_learnt D db D' db' kn kn m k (kn (table_name m) k)); auto. split; auto. Qed.

(** The two ways a save goes. *)
Lemma save_rows D db m (o o' : object) k db' : In m models -> keeps D db -> numbers_fit json_text fresh d db ->
  object_fits json_text resolve sem valid init (mo_decl m) (mo_code m) d (mo_tab m) o ->
  save_on (sqlite_methods json_text kw dl conv veq read E fresh) sem valid init (mo_code m) o db = (Ok tt, o', db') ->
  CodegenSpec.stores sem o' (do_pk (mo_code m)) k ->
  exists D', keeps D' db' /\ K m k /\ only m k D D'
    /\ (numbered_already valid (mo_code m) o -> ~ row_exists E (mo_code m) D k -> ~ row_exists E (mo_code m) D' k)
    /\ (fields_survive resolve sem (mo_decl m) o' ->
          forall r, In r (D' (table_name m)) -> has_key E (do_pkcol (mo_code m)) k r = true -> is_row_of resolve sem (mo_decl m) (mo_code m) o' r).
Proof.
  intros Hm KP NF OF H Hst.
  destruct (saved_conn json_text resolve sem valid init (mo_decl m) (mo_code m) kw dl conv veq read strict E fresh d (mo_tab m) (AD m Hm) D db db' o o' k KP NF OF H Hst)
    as (kv0 & D' & fs & K' & Kk & S & R & HC).
  destruct (save_main _ _ _ _ _ _ _ _ _ _ _ _ S _ _ _ _ _ R HC Hst) as (u & Hu & (S1 & S2 & S3 & S4 & S5 & S6 & S7 & S8 & S9)). cbn [w_db] in *.
  assert (SA : saved_as resolve sem valid (mo_decl m) (mo_code m) E (K m) o o' u k D D') by (repeat split; assumption).
  pose proof (relations_known _ _ _ _ _ _ _ _ _ _ _ _ _ _ SA (rd_relations _ _ _ _ _ _ _ _ _ _ _ _ _ R)) as RK.
  exists D'. split; [assumption|]. split; [assumption|]. split; [|split].
  - split; [|exact S6]. intros n N1 N2. apply S4; [assumption|]. intros (f & Hf & ->). exact (N2 f Hf eq_refl).
  - intros (Ha & u2 & Hu2 & Hv) N (y & Hy & Hk). rewrite Hu in Hu2. injection Hu2 as <-. rewrite Ha, Hv in S9. cbn [andb negb orb] in S9.
    destruct S9 as (_ & S9 & _). rewrite Nat.add_0_r in S9.
    assert (A : length (others (mo_code m) E k (D (table_name m))) = length (D (table_name m))).
    { apply filter_full. intros x Hx. destruct (has_key E (do_pkcol (mo_code m)) k x) eqn:Ek; [|reflexivity]. exfalso. apply N. exists x. auto. }
    rewrite <- S6, <- S9 in A. pose proof (filter_all _ _ A y Hy) as B. cbn beta in B. rewrite Hk in B. discriminate B.
  - intros FS r Hr Hk. split; [exact (S7 r Hr Hk)|]. split; [exact FS|]. exists k. split; [exact Hst|exact RK].
Qed.
Lemma delete_rows D db m (o : object) k db' : In m models -> keeps D db -> CodegenSpec.stores sem o (do_pk (mo_code m)) k -> K m k ->
  delete_on (sqlite_methods json_text kw dl conv veq read E fresh) sem (mo_code m) o db = (Ok tt, db') ->
  exists D', keeps D' db' /\ only m k D D' /\ ~ row_exists E (mo_code m) D' k.
Proof.
  intros Hm KP Hst Kk H. set (g := mo_code m) in *.
  destruct (delete_object_sim json_text resolve sem (mo_decl m) g kw dl conv veq read strict E fresh d (mo_tab m) (AD m Hm) D db o k (numbered g VNull) KP Hst Kk)
    as ((D' & fs & r' & K' & A & HC) & _ & _).
  rewrite H in K', A. cbn [fst snd] in K', A. specialize (HC []). rewrite app_nil_r, delete_on_conn in HC.
  pose proof (is_setting json_text resolve sem (mo_decl m) g kw dl conv veq read strict E d (mo_tab m) (AD m Hm) VNull) as S.
  pose proof (rows_table json_text resolve sem (mo_decl m) g kw dl conv veq read strict E d (mo_tab m) (AD m Hm) D db KP) as T.
  destruct (C29_delete _ X _ _ _ _ _ _ _ _ _ _ _ {| w_db := D; w_fate := fs |} _ _ _ S T Hst Kk HC) as (_ & _ & _ & G3 & G4 & _). cbn [w_db] in *.
  destruct r' as [[]|e'|]; try contradiction. destruct G3 as [G3|[G3 _]]; [|discriminate G3].
  exists D'. split; [assumption|]. split; [split|].
  - intros n N1 _. now apply G4.
  - unfold rows_of_others in *. fold g. rewrite G3. generalize (D (do_table g)). clear. induction l as [|x l IH]; [reflexivity|].
    cbn [filter]. destruct (has_key E (do_pkcol g) k x) eqn:Ek; cbn [negb filter]; [exact IH|]. rewrite Ek. cbn [negb]. now rewrite IH.
  - intros (x & Hx & Hk). rewrite G3 in Hx. apply filter_In in Hx as [_ Hx]. rewrite Hk in Hx. discriminate Hx.
Qed.

Lemma step_inv D db kn m db' kn' : In m models -> step m db kn db' kn' -> inv D db kn -> exists D', inv D' db' kn'.
Proof.
  intros Hm H I. pose proof I as [KP R]. destruct H as [db kn o o' k db' kn' OF NF H Hst FS Hp L|db kn o o' k db' OF NF H Hst Ha Hp|db kn o o' k db' kn' e OF NF H Hst L
    |db kn o o' db' r OF NF NP H Hno|db kn o k db' kn' Hst Kk H L|db kn o k db' e Hst Kk H].
  - destruct (save_rows D db m o o' k db' Hm KP NF OF H Hst) as (D' & K' & Kk & O & _ & IR). exists D'.
    apply (inv_learnt D db D' db' kn kn' m k (Present o')); auto. apply present_right; auto.
    apply (C58_round_trip_partial _ _ _ _ _ _ _ _ _ _ _ _ _ _ _ _ _ _ _ _ _ _ _ _ _ (AD m Hm) KP NF OF H Hst FS).
    intros Ha. destruct (Hp Ha) as (o1 & Eo). pose proof (R m k Hm Kk) as R1. rewrite Eo in R1. exact (proj1 (proj2 R1)).
  - destruct (save_rows D db m o o' k db' Hm KP NF OF H Hst) as (D' & K' & Kk & O & N & _). exists D'.
    apply (inv_same D db D' db' kn m k); auto. pose proof (R m k Hm Kk) as [_ R1]. destruct (kn (table_name m) k) as [|o1|] eqn:Ek.
    + apply absent_right; auto.
    + destruct Hp. now exists o1.
    + split; exact Logic.I.
  - destruct (save_any json_text resolve sem valid init (mo_decl m) (mo_code m) kw dl conv veq read strict E fresh d (mo_tab m) (AD m Hm) D db o (Err e) o' db' KP NF OF H)
      as (D' & K' & O1 & O2); [discriminate|]. exists D'. destruct L as [L1 L2]. destruct O2 as [O2|(kv & Hst' & Kk & O2)].
    + split; [assumption|]. intros m' i Hm' Ki. pose proof (R m' i Hm' Ki) as R1.
      assert (SR : right D' db' m' i (kn (table_name m') i)).
      { apply (right_moves D db D' db' m' i _ Hm' KP K' Ki); [|exact R1].
        destruct (string_dec (table_name m') (table_name m)) as [Et|Nt]; [rewrite Et, O2; reflexivity|].
        rewrite (O1 (table_name m') Nt); [reflexivity|]. exact (proj2 (AP m' m Hm' Hm)). }
      destruct (kn' (table_name m') i) as [|o1|] eqn:Ek'; [| |split; exact Logic.I].
      all: rewrite <- Ek', (L2 (table_name m') i); [exact SR|].
      all: destruct (string_dec (table_name m') (table_name m)) as [Et|Nt]; [right|now left]; intros ->; rewrite Et, L1 in Ek'; discriminate Ek'.
    + assert (kv = k) as -> by exact (stores_fun sem o' _ _ _ Hst' Hst).
      apply (inv_learnt D db D' db' kn kn' m k Unclear); [assumption..|split; assumption|split; assumption|split; exact Logic.I].
  - destruct (save_any json_text resolve sem valid init (mo_decl m) (mo_code m) kw dl conv veq read strict E fresh d (mo_tab m) (AD m Hm) D db o r o' db' KP NF OF H NP)
      as (D' & K' & O1 & O2). exists D'. destruct O2 as [O2|(kv & Hst' & _)]; [|now destruct (Hno kv)].
    split; [assumption|]. intros m' i Hm' Ki. apply (right_moves D db D' db' m' i _ Hm' KP K' Ki); [|exact (R m' i Hm' Ki)].
    destruct (string_dec (table_name m') (table_name m)) as [Et|Nt]; [rewrite Et, O2; reflexivity|].
    rewrite (O1 (table_name m') Nt); [reflexivity|]. exact (proj2 (AP m' m Hm' Hm)).
  - destruct (delete_rows D db m o k db' Hm KP Hst Kk H) as (D' & K' & O & N). exists D'.
    apply (inv_learnt D db D' db' kn kn' m k Absent); auto. apply absent_right; auto.
  - destruct (C58_delete _ _ _ _ _ _ _ _ _ _ _ _ _ _ _ _ _ _ _ _ _ (AD m Hm) KP Hst Kk _ _ H) as (_ & [F|[_ ->]] & _); [discriminate F|]. exists D. exact I.
Qed.
Lemma history_inv db kn db' kn' : @history U X json_text resolve sem valid init kw dl conv veq read E fresh d models db kn db' kn' ->
  forall D, inv D db kn -> exists D', inv D' db' kn'.
Proof.
  induction 1 as [db kn|db kn m db1 kn1 db2 kn2 Hm Hs _ IH]; intros D I; [eauto|].
  destruct (step_inv D db kn m db1 kn1 Hm Hs I) as (D1 & I1). exact (IH D1 I1).
Qed.
End History.

(** * C59 *)

(** Start from a database that has the models' tables, know of no object but that the
    tables have no row with its key, and let any calls follow, on objects of any of the
    models, whether they succeed or fail. Then [get] finds each object as it was saved
    last, finds none that was deleted or never saved, and the database still has the
    tables. Missing: a save that succeeds although it stores nothing, of an object whose
    automatic key is set and whose row is gone (C58_missing_row_refuted), after which
    there is still no object. *)
Theorem C59_history_partial : forall U X json_text resolve sem valid init kw dl conv veq read strict E fresh d models D db kn db' kn',
  all_deployed json_text resolve sem kw dl conv veq read strict E d models -> apart resolve models ->
  keeps json_text E conv strict d D db -> known_before (X := X) E models D kn ->
  @history U X json_text resolve sem valid init kw dl conv veq read E fresh d models db kn db' kn' ->
  (exists D', keeps json_text E conv strict d D' db') /\ all_found json_text resolve sem kw dl E models db' kn'.
Proof.
  intros U X json_text resolve sem valid init kw dl conv veq read strict E fresh d models D db kn db' kn' AD AP KP KB H.
  assert (I : inv json_text resolve sem kw dl conv strict E d models D db kn).
  { split; [assumption|]. intros m k Hm Kk. destruct (KB m k Hm) as [-> | [-> N]]; [split; exact Logic.I|].
    now apply (absent_right json_text resolve sem kw dl conv veq read strict E d models AD). }
  destruct (history_inv json_text resolve sem valid init kw dl conv veq read strict E fresh d models AD AP db kn db' kn' H D I) as (D' & KP' & R).
  split; [eauto|]. intros m k Hm Kk. exact (proj1 (R m k Hm Kk)).
Qed.
Print Assumptions C59_history_partial.

(** A key the database makes up is not that of an object known to be there. *)
Theorem C59_new_key : forall U X json_text resolve sem valid init kw dl conv veq read strict E fresh d models D db kn db1 kn1 m
    (o o' : @object U (many X)) k db2 u,
  all_deployed json_text resolve sem kw dl conv veq read strict E d models -> apart resolve models ->
  keeps json_text E conv strict d D db -> known_before (X := X) E models D kn ->
  @history U X json_text resolve sem valid init kw dl conv veq read E fresh d models db kn db1 kn1 ->
  In m models -> numbers_fit json_text fresh d db1 -> object_fits json_text resolve sem valid init (mo_decl m) (mo_code m) d (mo_tab m) o ->
  do_auto (mo_code m) = true -> obj_get o (sf_ident (do_pk (mo_code m))) = Some (FV u) -> valid u = false ->
  save_on (sqlite_methods json_text kw dl conv veq read E fresh) sem valid init (mo_code m) o db1 = (Ok tt, o', db2) ->
  CodegenSpec.stores sem o' (do_pk (mo_code m)) k -> ~ is_present (kn1 (table_name m) k).
Proof.
  intros U X json_text resolve sem valid init kw dl conv veq read strict E fresh d models D db kn db1 kn1 m o o' k db2 u AD AP KP KB H Hm NF OF Ha Hu Hv HS Hst (o1 & Ep).
  destruct (C59_history_partial _ _ _ _ _ _ _ _ _ _ _ _ _ _ _ _ _ _ _ _ _ _ AD AP KP KB H) as [(D1 & KP1) AF].
  destruct (save_rows json_text resolve sem valid init kw dl conv veq read strict E fresh d models AD D1 db1 m o o' k db2 Hm KP1 NF OF HS Hst) as (_ & _ & Kk & _).
  pose proof (AF m k Hm Kk) as F. rewrite Ep in F. destruct F as [(r & Hr) F]. destruct (F r Hr) as (o2 & -> & _).
  destruct (C58_new_key _ _ _ _ _ _ _ _ _ _ _ _ _ _ _ _ _ _ _ _ _ _ _ _ _ _ (AD m Hm) KP1 NF OF Ha Hu Hv HS Hst) as [_ N]. discriminate (N _ Hr).
Qed.
Print Assumptions C59_new_key.

(** Every call is one of the steps of a history: a save of an object that fits, if it does
    not panic and, when it succeeds, the object's values are ones that convert back; and
    a delete of an object that has a key. *)
Lemma sqlval_dec (a b : SqlVal) : {a = b} + {a <> b}.
Proof. repeat decide equality. Defined.
Lemma learns {U X} (kn : @knowledge U X) m k x : exists kn', learnt kn m k x kn'.
Proof.
  exists (fun n i => if string_dec n (table_name m) then if sqlval_dec i k then x else kn n i else kn n i). split.
  - destruct (string_dec (table_name m) (table_name m)); [|contradiction]. destruct (sqlval_dec k k); [reflexivity|contradiction].
  - intros n i [H|H]; destruct (string_dec n (table_name m)); [contradiction|reflexivity| |reflexivity]. destruct (sqlval_dec i k); [contradiction|reflexivity].
Qed.
Theorem C59_every_call : forall U X json_text resolve sem valid init kw dl conv veq read strict E fresh d m D db kn (o : @object U (many X)),
  deployed json_text resolve sem (mo_decl m) (mo_code m) kw dl conv veq read strict E d (mo_tab m) -> keeps json_text E conv strict d D db ->
  (forall r o' db', numbers_fit json_text fresh d db -> object_fits json_text resolve sem valid init (mo_decl m) (mo_code m) d (mo_tab m) o ->
     save_on (sqlite_methods json_text kw dl conv veq read E fresh) sem valid init (mo_code m) o db = (r, o', db') ->
     r <> Panic -> (r = Ok tt -> fields_survive resolve sem (mo_decl m) o') ->
     exists kn', step (X := X) json_text resolve sem valid init kw dl conv veq read E fresh d m db kn db' kn')
  /\ (forall k r db', CodegenSpec.stores sem o (do_pk (mo_code m)) k -> given_fits json_text (mo_tab m) (do_pkcol (mo_code m)) k ->
     delete_on (sqlite_methods json_text kw dl conv veq read E fresh) sem (mo_code m) o db = (r, db') ->
     exists kn', step (X := X) json_text resolve sem valid init kw dl conv veq read E fresh d m db kn db' kn').
Proof.
  intros U X json_text resolve sem valid init kw dl conv veq read strict E fresh d m D db kn o DP KP. split.
  - intros r o' db' NF OF H NP FS. destruct (field_sql sem o' (do_pk (mo_code m))) as [k|e|] eqn:Ek.
    + apply field_sql_ok in Ek. destruct r as [[]|e|]; [| |contradiction].
      * assert (NA : numbered_already valid (mo_code m) o \/ ~ numbered_already valid (mo_code m) o).
        { unfold numbered_already. destruct (do_auto (mo_code m)); [|right; intros [F _]; discriminate F].
          destruct (obj_get o (sf_ident (do_pk (mo_code m)))) as [[u|mm]|]; [|right; intros (_ & u & F & _); discriminate F..].
          destruct (valid u) eqn:Hv; [left; eauto|right; intros (_ & u2 & F & F2); injection F as <-; congruence]. }
        destruct (learns kn m k (Present o')) as (kn' & L).
        destruct (kn (table_name m) k) as [|o1|] eqn:Es.
        2:{ exists kn'. apply (saved _ _ _ _ _ _ _ _ _ _ _ _ _ m db kn o o' k db' kn'); auto. intros _. exists o1. assumption. }
        all: destruct NA as [NA|NA];
          [exists kn; apply (saved_nothing _ _ _ _ _ _ _ _ _ _ _ _ _ m db kn o o' k db'); auto; intros (o2 & F); congruence
          |exists kn'; apply (saved _ _ _ _ _ _ _ _ _ _ _ _ _ m db kn o o' k db' kn'); auto; intros F; contradiction].
      * destruct (learns kn m k Unclear) as (kn' & L). exists kn'. exact (not_saved _ _ _ _ _ _ _ _ _ _ _ _ _ m db kn o o' k db' kn' e OF NF H Ek L).
    + exists kn. apply (not_keyed _ _ _ _ _ _ _ _ _ _ _ _ _ m db kn o o' db' r OF NF NP H). intros k F. apply field_sql_ok in F. congruence.
    + exists kn. apply (not_keyed _ _ _ _ _ _ _ _ _ _ _ _ _ m db kn o o' db' r OF NF NP H). intros k F. apply field_sql_ok in F. congruence.
  - intros k r db' Hst Kk H.
    destruct (C58_delete _ _ _ _ _ _ _ _ _ _ _ _ _ _ _ _ _ _ _ _ _ DP KP Hst Kk _ _ H) as (_ & [-> |[(e & ->) _]] & _).
    + destruct (learns kn m k Absent) as (kn' & L). exists kn'. exact (deleted _ _ _ _ _ _ _ _ _ _ _ _ _ m db kn o k db' kn' Hst Kk H L).
    + exists kn. exact (not_deleted _ _ _ _ _ _ _ _ _ _ _ _ _ m db kn o k db' e Hst Kk H).
Qed.
Print Assumptions C59_every_call.

(** ** A history *)
Definition hs_model : model := {| mo_decl := post; mo_code := post_code; mo_tab := sv_table |}.
Definition hs_db (title : string) (tags : list row) : edb :=
  sv_db [] [[("title", LText title); ("type", LNull); ("blog", LNull); ("id", LInteger 1)]]%string tags.
Definition hs_tags : list row := rev [[("owner", LInteger 1); ("has", LInteger 20)]; [("owner", LInteger 1); ("has", LInteger 30)]]%string.
Definition hs_saved (title : string) : @object rvalue (many Z) := sv_post (Some 1%Z) title None (ex_tags_of 1 [] []).
Lemma hs_key : given_fits Some sv_table "id" (VBigInt 1).
Proof.
  exists sv_key. split; [cbn; auto|]. split; [reflexivity|]. exists TBigInt. split; [reflexivity|]. split; [now right|]. split; [cbn; lia|].
  split; [intros (? & ? & Y); discriminate Y|]. split; discriminate.
Qed.
Lemma hs_stores : CodegenSpec.stores post_sem (hs_saved "bye") (do_pk post_code) (VBigInt 1).
Proof. exists (existT rust (RAutoPk (RInt I64)) (Some 1%Z)). split; vm_compute; reflexivity. Qed.
Lemma hs_fits : object_fits Some table_resolve post_sem rv_valid rv_init post post_code sv_schema sv_table (hs_saved "bye").
Proof.
  constructor.
  - intros f v Hf _ (u & Hu & Ht). vm_compute in Hf.
    destruct Hf as [<-|[<-|[<-|[<-|[]]]]]; vm_compute in Hu; injection Hu as <-; vm_compute in Ht; injection Ht as <-.
    + exists (col "title" TText). split; [cbn; auto|]. split; [reflexivity|]. exists TText. repeat split; try discriminate; try (now right). intros (? & ? & Y). discriminate Y.
    + exact hs_key.
    + exists (sv_opt "type" TInt None). split; [cbn; auto|]. split; [reflexivity|].
      exists TInt. split; [reflexivity|]. split; [now left|]. split; [exact Logic.I|]. split; [intros (? & ? & Y); discriminate Y|]. split; [discriminate|auto].
    + exists (sv_opt "blog" TBigInt (Some (RefLiteral {| rl_table := "Blog"; rl_column := "id" |}))). split; [cbn; auto|]. split; [reflexivity|].
      exists TBigInt. split; [reflexivity|]. split; [now left|]. split; [exact Logic.I|]. split; [intros (? & ? & Y); discriminate Y|]. split; [discriminate|auto].
  - intros u _ Hu Hv. vm_compute in Hu. injection Hu as <-. discriminate Hv.
  - intros f Hf. vm_compute in Hf. destruct Hf as [<-|[]]. exists (ex_tags_of 1 [] []). split; [reflexivity|]. split; [right|split; constructor].
    split; [|exists (VBigInt 1); split; [exact hs_stores|]; split; reflexivity].
    intros _. split; [vm_compute; reflexivity|]. exists (existT rust (RAutoPk (RInt I64)) (Some 1%Z)). split; vm_compute; reflexivity.
Qed.
Ltac numbers_tac := intros n t b c H Hb Hc Ha; exists (VBigInt (st_fresh b)); cbn in H;
  destruct H as [[= <- <-]|[[= <- <-]|[[= <- <-]|[]]]]; vm_compute in Hb; injection Hb as <-; cbn in Hc;
    repeat (destruct Hc as [<-|Hc]; [try discriminate Ha|]); try destruct Hc;
    (split; [|reflexivity]; exists TBigInt; split; [reflexivity|]; split; [now right|]; split; [cbn; lia|]; split; [intros (? & ? & Y); discriminate Y|]; split; discriminate).
Notation hs_history := (history Some table_resolve post_sem rv_valid rv_init ddl_kw sqlite_like ex_conv st_veq ex_read st_engine st_fresh sv_schema [hs_model]).
Notation hs_found := (found (X := Z) Some table_resolve post_sem ddl_kw sqlite_like st_engine hs_model (VBigInt 1)).

(** A post is saved, another refused, the first changed: it is found as changed. Then it
    is deleted and saved once more, to no effect: it is not found. *)
Lemma hs_start : known_before (U := rvalue) (X := Z) st_engine [hs_model] (fun _ => []) (fun _ _ => Absent).
Proof. intros m k _. right. split; [reflexivity|]. intros (x & [] & _). Qed.
Lemma hs_apart : apart table_resolve [hs_model].
Proof.
  intros m m' [<-|[]] [<-|[]]. split; [reflexivity|]. intros f Hf. vm_compute in Hf. destruct Hf as [<-|[]]. vm_compute. discriminate.
Qed.
Lemma hs_deployed : all_deployed Some table_resolve post_sem ddl_kw sqlite_like ex_conv st_veq ex_read true st_engine sv_schema [hs_model].
Proof. intros m [<-|[]]. exact sv_deployed. Qed.
Lemma hs_table_key : do_pkcol post_code = "id"%string.
Proof. exact (proj1 (proj2 (proj2 (proj2 (proj2 (proj2 C31_case)))))). Qed.
Example C59_case : exists db1 db2 kn1 kn2,
  hs_history (sv_db [] [] []) (fun _ _ => Absent) db1 kn1 /\ kn1 "posts"%string (VBigInt 1) = Present (hs_saved "bye")
  /\ hs_history db1 kn1 db2 kn2 /\ kn2 "posts"%string (VBigInt 1) = Absent
  /\ hs_found db1 (Present (hs_saved "bye")) /\ hs_found db2 Absent.
Proof.
  destruct C58_case as (HC & Hst & FS & (e & HE) & _).
  destruct (learns (U := rvalue) (X := Z) (fun _ _ => Absent) hs_model (VBigInt 1) (Present (hs_saved "hello"))) as (kn0 & L0).
  destruct (learns kn0 hs_model (VBigInt 1) (Present (hs_saved "bye"))) as (kn1 & L1).
  destruct (learns kn1 hs_model (VBigInt 1) Absent) as (kn2 & L2).
  assert (H1 : hs_history (sv_db [] [] []) (fun _ _ => Absent) (hs_db "bye" hs_tags) kn1).
  { eapply one_more with (m := hs_model); [now left| |].
    { eapply not_keyed with (o := sv_post None "hello" (Some 3%Z) ex_new_tags); [exact (sv_fits _ (or_intror eq_refl))|exact sv_numbers| |exact HE|]; [discriminate|].
      intros k (u & Hu & Ht). vm_compute in Hu. injection Hu as <-. vm_compute in Ht. discriminate Ht. }
    eapply one_more with (m := hs_model); [now left| |].
    { eapply saved with (o := sv_post None "hello" None ex_new_tags); [exact (sv_fits _ (or_introl eq_refl))|exact sv_numbers|exact HC|exact Hst|exact FS| |exact L0].
      intros (_ & u & Hu & Hv). vm_compute in Hu. injection Hu as <-. discriminate Hv. }
    eapply one_more with (m := hs_model); [now left| |apply no_more].
    eapply saved with (o := hs_saved "bye") (o' := hs_saved "bye"); [exact hs_fits|numbers_tac|vm_compute; reflexivity|exact hs_stores|survive| |exact L1].
    intros _. exists (hs_saved "hello"). exact (proj1 L0). }
  assert (H2 : exists db2, delete_on sv_M post_sem post_code (hs_saved "bye") (hs_db "bye" hs_tags) = (Ok tt, db2) /\ db2 = sv_db [] [] hs_tags)
    by (eexists; split; [vm_compute; reflexivity|vm_compute; reflexivity]).
  destruct H2 as (db2 & H2 & E2).
  assert (H3 : hs_history (hs_db "bye" hs_tags) kn1 db2 kn2).
  { eapply one_more with (m := hs_model); [now left| |].
    { eapply deleted with (o := hs_saved "bye"); [exact hs_stores|cbn [mo_tab mo_code hs_model]; rewrite hs_table_key; exact hs_key|exact H2|exact L2]. }
    eapply one_more with (m := hs_model); [now left| |apply no_more]. subst db2.
    eapply saved_nothing with (o := hs_saved "bye") (o' := hs_saved "bye"); [exact hs_fits|numbers_tac|vm_compute; reflexivity|exact hs_stores| |].
    - split; [vm_compute; reflexivity|]. exists (existT rust (RAutoPk (RInt I64)) (Some 1%Z)). split; vm_compute; reflexivity.
    - intros (o1 & Ho). rewrite (proj1 L2) in Ho. discriminate Ho. }
  exists (hs_db "bye" hs_tags), db2, kn1, kn2. split; [exact H1|]. split; [exact (proj1 L1)|]. split; [exact H3|]. split; [exact (proj1 L2)|].
  assert (H4 : hs_history (sv_db [] [] []) (fun _ _ => Absent) db2 kn2).
  { clear - H1 H3. induction H1; [exact H3|]. eapply one_more; eauto. }
  assert (KK : given_fits Some (mo_tab hs_model) (do_pkcol (mo_code hs_model)) (VBigInt 1)) by (cbn [mo_tab mo_code hs_model]; rewrite hs_table_key; exact hs_key).
  split.
  - rewrite <- (proj1 L1).
    exact (proj2 (C59_history_partial _ _ _ _ _ _ _ _ _ _ _ _ _ _ _ _ _ _ _ _ _ _ hs_deployed hs_apart sv_kept hs_start H1) hs_model (VBigInt 1) (or_introl eq_refl) KK).
  - rewrite <- (proj1 L2).
    exact (proj2 (C59_history_partial _ _ _ _ _ _ _ _ _ _ _ _ _ _ _ _ _ _ _ _ _ _ hs_deployed hs_apart sv_kept hs_start H4) hs_model (VBigInt 1) (or_introl eq_refl) KK).
Qed.
