(** What single statements do to one table of a PostgreSQL catalogue. *)
From Verif Require Import Base SqlVal Sql Query QuerySpec Adb AdbSpec AdbProofs Literal LiteralSpec
  Ddl DdlProofs DdlSpec SqliteDdl SqliteDdlProofs DdlFine PgDdl PgSem PgSpec PgDdlProofs.

(** * Strings *)

Lemma lower_app a b : lower (a ++ b) = (lower a ++ lower b)%string.
Proof. induction a as [|c a IH]; [reflexivity|]. cbn. now rewrite IH. Qed.
Lemma str_list a b : list_ascii_of_string (a ++ b) = list_ascii_of_string a ++ list_ascii_of_string b.
Proof. induction a as [|c a IH]; [reflexivity|]. cbn. now rewrite IH. Qed.
Lemma str_list_inj a b : list_ascii_of_string a = list_ascii_of_string b -> a = b.
Proof. intros H. rewrite <- (string_of_list_ascii_of_string a), <- (string_of_list_ascii_of_string b). now rewrite H. Qed.
Lemma str_tail a b s : (a ++ s)%string = (b ++ s)%string -> a = b.
Proof. intros H. apply (f_equal list_ascii_of_string) in H. rewrite !str_list in H. apply app_inv_tail in H. now apply str_list_inj. Qed.
Lemma str_head a b s : (s ++ a)%string = (s ++ b)%string -> a = b.
Proof. intros H. apply (f_equal list_ascii_of_string) in H. rewrite !str_list in H. apply app_inv_head in H. now apply str_list_inj. Qed.
Lemma str_last a b x y : (a ++ String x "")%string = (b ++ String y "")%string -> x = y.
Proof. intros H. apply (f_equal list_ascii_of_string) in H. rewrite !str_list in H. now apply app_inj_tail in H as [_ H]. Qed.
Lemma str_length a b : String.length (a ++ b) = String.length a + String.length b.
Proof. induction a as [|c a IH]; [reflexivity|]. cbn. now rewrite IH. Qed.

Definition same_slot (T U : string) (x y : pcons) : Prop :=
  match x, y with
  | PKey _, PKey _ => T = U
  | PUnique _, PUnique _ | PRef _, PRef _ => (T ++ "_" ++ cons_col x)%string = (U ++ "_" ++ cons_col y)%string
  | _, _ => False
  end.
Lemma usual_same T U x y : usual_name T x = usual_name U y -> same_slot T U x y.
Proof.
  assert (E1 : forall a, (a ++ "_pkey")%string = (((a ++ "_") ++ String "p" "") ++ "key")%string) by (intros; now rewrite <- !str_app_assoc).
  assert (E2 : forall a c, (a ++ "_" ++ c ++ "_key")%string = (((a ++ "_" ++ c) ++ String "_" "") ++ "key")%string) by (intros; now rewrite <- !str_app_assoc).
  assert (E3 : forall a c, (a ++ "_" ++ c ++ "_fkey")%string = (((a ++ "_" ++ c ++ "_") ++ String "f" "") ++ "key")%string) by (intros; now rewrite <- !str_app_assoc).
  destruct x as [a|a|f], y as [c|c|g]; cbn [usual_name same_slot cons_col]; rewrite ?E1, ?E2, ?E3; intros H; apply str_tail in H;
    try (apply str_last in H; discriminate H); apply str_tail in H.
  - now apply str_tail in H.
  - exact H.
  - replace (T ++ "_" ++ fk_col f ++ "_")%string with ((T ++ "_" ++ fk_col f) ++ "_")%string in H by (now rewrite <- !str_app_assoc).
    replace (U ++ "_" ++ fk_col g ++ "_")%string with ((U ++ "_" ++ fk_col g) ++ "_")%string in H by (now rewrite <- !str_app_assoc).
    now apply str_tail in H.
Qed.
Lemma usual_slot T x y : usual_name T x = usual_name T y <->
  match x, y with PKey _, PKey _ => True | PUnique a, PUnique c => a = c | PRef f, PRef g => fk_col f = fk_col g | _, _ => False end.
Proof.
  split.
  - intros H. apply usual_same in H. destruct x, y; cbn [same_slot cons_col] in H; auto; apply str_head in H; now apply str_head in H.
  - destruct x, y; cbn; try tauto; intros ->; reflexivity.
Qed.

(** * Tables *)

Definition has_cons (b : ptab) (x : pcons) : Prop := In x (map snd (p_cons b)).
Lemma pcol_at_In b y k : pcol_at b y = Some k -> In k (p_cols b) /\ p_name k = y.
Proof. intros H. apply find_some in H as [H E]. split; [exact H|now apply String.eqb_eq]. Qed.
Lemma In_pcol_at b k : NoDup (map p_name (p_cols b)) -> In k (p_cols b) -> pcol_at b (p_name k) = Some k.
Proof.
  unfold pcol_at. intros ND H. induction (p_cols b) as [|j l IH]; [contradiction|]. cbn in ND |- *. inversion ND as [|? ? N ND']; subst.
  destruct H as [->|H]; [now rewrite String.eqb_refl|]. destruct (String.eqb_spec (p_name j) (p_name k)) as [E|_]; [|now apply IH].
  exfalso. apply N. rewrite E. now apply in_map.
Qed.
Lemma pcol_at_None b y : pcol_at b y = None <-> ~ In y (map p_name (p_cols b)).
Proof.
  unfold pcol_at. induction (p_cols b) as [|k l IH]; [cbn; tauto|]. cbn. destruct (String.eqb_spec (p_name k) y) as [E|E]; [split; [discriminate|tauto]|].
  rewrite IH. tauto.
Qed.
Lemma set_col_names b c f : (forall k, p_name (f k) = p_name k) -> map p_name (p_cols (set_col b c f)) = map p_name (p_cols b).
Proof. intros H. cbn. rewrite map_map. apply map_ext. intros k. destruct (String.eqb (p_name k) c); auto. Qed.
Lemma pcol_at_set b c f y : (forall k, p_name (f k) = p_name k) ->
  pcol_at (set_col b c f) y = if String.eqb y c then option_map f (pcol_at b c) else pcol_at b y.
Proof.
  intros H. unfold pcol_at, set_col, with_cols. cbn [p_cols]. induction (p_cols b) as [|k l IH]; [now destruct (String.eqb y c)|]. cbn.
  destruct (String.eqb_spec (p_name k) c) as [E|E].
  - rewrite H. rewrite IH. destruct (String.eqb_spec y c) as [->|Ny]; [now apply String.eqb_eq in E as ->|].
    destruct (String.eqb_spec (p_name k) y) as [E'|_]; [congruence|reflexivity].
  - rewrite IH. destruct (String.eqb_spec y c) as [->|Ny]; [|reflexivity]. destruct (String.eqb_spec (p_name k) c) as [E'|_]; [contradiction|reflexivity].
Qed.
Lemma set_notnull_id b c : (forall k, In k (p_cols b) -> p_name k = c -> p_notnull k = true) -> set_col b c (set_notnull true) = b.
Proof.
  intros H. destruct b as [cs xs]. unfold set_col, with_cols. cbn [p_cols p_cons] in *. f_equal.
  induction cs as [|k l IH]; [reflexivity|]. cbn. rewrite IH by (intros j Hj; apply H; now right).
  destruct (String.eqb_spec (p_name k) c) as [E|_]; [|reflexivity]. f_equal. specialize (H k (or_introl eq_refl) E). destruct k; cbn in *. now subst.
Qed.

(** * One statement touches one table *)

Definition about (x : ddl) : string :=
  match x with
  | CreateTable _ t _ _ _ | DropTable t | CopyTable t _ _ | AddCol t _ | DropCol t _ | RenameTable t _ | RenameCol t _ _
  | AddForeignKey t _ | AddPrimaryKey t _ | AddUnique t _ | DropConstraint _ t _ | SetType t _ _ | SetNotNull t _ _ | SetDefault t _ _ => t
  end.
Definition touches (T : string) (db db' : pdb) : Prop := msorted db' /\ forall m, m <> T -> mget m db' = mget m db.
Lemma touch_put T b db : msorted db -> touches T db (mput T b db).
Proof.
  intros S. split; [now apply mput_sorted|]. intros m N. rewrite mget_mput by exact S. destruct (keqb_spec m T); [contradiction|reflexivity].
Qed.
Lemma touch_refl T db : msorted db -> touches T db db.
Proof. intros S. now split. Qed.
Lemma touch_trans T a b c : touches T a b -> touches T b c -> touches T a c.
Proof. intros [_ H] [S K]. split; [exact S|]. intros m N. rewrite K, H; auto. Qed.

Section Frame.
Variable pick : pdb -> string -> string.
Variable allows : pdb -> ddl -> bool.
Lemma add_frame db T x db' : msorted db -> add_cons pick db T x = Some db' -> touches T db db'.
Proof.
  unfold add_cons. intros S. destruct (mget T db) as [tb|]; [|discriminate]. destruct (_ && _); [|discriminate]. intros [= <-]. now apply touch_put.
Qed.
Lemma add_all_frame T xs : forall db db', msorted db -> add_all pick db T xs = Some db' -> touches T db db'.
Proof.
  induction xs as [|x xs IH]; intros db db' S H; cbn in H; [injection H as <-; now apply touch_refl|].
  destruct (add_cons pick db T x) as [db1|] eqn:E; [|discriminate]. pose proof (add_frame _ _ _ _ S E) as F. eapply touch_trans; [exact F|]. apply IH; [apply F|exact H].
Qed.
Lemma alter_frame db T c ok f db' : msorted db -> alter_col db T c ok f = Some db' -> touches T db db'.
Proof.
  unfold alter_col. intros S. destruct (mget T db) as [tb|]; [|discriminate]. destruct (pcol_at tb c); [|discriminate]. destruct (ok p); [|discriminate].
  intros [= <-]. now apply touch_put.
Qed.
Lemma pexec_frame db x db' : msorted db -> pexec pick allows db x = Some db' -> touches (about x) db db'.
Proof.
  intros S. unfold pexec. destruct (allows db x); [|discriminate]. destruct x; cbn [pexec0 about]; try discriminate.
  - unfold pcreate. destruct strict; [discriminate|]. destruct (is_some _); [destruct if_absent; [intros [= <-]; now apply touch_refl|discriminate]|].
    destruct (_ && _); [|discriminate]. intros H. eapply touch_trans; [apply touch_put; exact S|]. eapply add_all_frame; [|exact H]. now apply mput_sorted.
  - unfold pdrop. destruct (mget t db); [|discriminate]. destruct (existsb _ _); [discriminate|]. intros [= <-]. split; [now apply mdel_sorted|].
    intros m N. rewrite mget_mdel. destruct (keqb_spec m t); [contradiction|reflexivity].
  - unfold padd_col. destruct (mget t db) as [tb|]; [|discriminate]. destruct (_ || _); [discriminate|].
    intros H. eapply touch_trans; [apply touch_put; exact S|]. eapply add_all_frame; [|exact H]. now apply mput_sorted.
  - unfold pdrop_col. destruct (mget t db) as [tb|]; [|discriminate]. destruct (_ && _); [|discriminate]. intros [= <-]. now apply touch_put.
  - now apply add_frame.
  - now apply add_frame.
  - now apply add_frame.
  - unfold drop_cons. destruct (mget t db) as [tb|]; [|discriminate].
    match goal with |- context [find ?a ?b] => destruct (find a b) as [[m x]|] end.
    + match goal with |- (if ?x then _ else _) = _ -> _ => destruct x end; [discriminate|]. intros [= <-]. now apply touch_put.
    + destruct if_exists; [|discriminate]. intros [= <-]. now apply touch_refl.
  - now apply alter_frame.
  - now apply alter_frame.
  - match goal with |- context [match ?l with Some _ => _ | None => _ end] => destruct l end; now apply alter_frame.
Qed.
Lemma prun_frame T xs : forall db db', Forall (fun x => about x = T) xs -> msorted db -> prun pick allows db xs = Some db' -> touches T db db'.
Proof.
  induction xs as [|x xs IH]; intros db db' F S H; cbn in H; [injection H as <-; now apply touch_refl|].
  destruct (pexec pick allows db x) as [db1|] eqn:E; [|discriminate]. inversion F as [|? ? A F']; subst. pose proof (pexec_frame _ _ _ S E) as P.
  eapply touch_trans; [exact P|]. apply IH; [exact F'|apply P|exact H].
Qed.
Lemma prun_app xs : forall ys db, prun pick allows db (xs ++ ys) = match prun pick allows db xs with Some db' => prun pick allows db' ys | None => None end.
Proof. induction xs as [|x xs IH]; intros ys db; [reflexivity|]. cbn. destruct (pexec pick allows db x); [apply IH|reflexivity]. Qed.
Lemma prun_one db x db' : prun pick allows db [x] = Some db' -> pexec0 pick db x = Some db'.
Proof. cbn. unfold pexec. destruct (allows db x); [|discriminate]. destruct (pexec0 pick db x); [auto|discriminate]. Qed.
End Frame.

(** * Tables of the schemas *)

Section Local.
Variable pick : pdb -> string -> string.
Hypothesis Hp : picks pick.
Variable kw : string -> bool.
Variables old new : ADB.
Variable db0 : pdb.
Hypothesis Nc : names_clear kw old new db0.
Notation cat := (cat kw).
Notation named := (named old new).
Notation table_named := (table_named old new).

Lemma named_table n c : named n c -> table_named n.
Proof using. intros (t & [H|H] & _); [left|right]; now exists t. Qed.

Record tab_ok (n : string) (b : ptab) : Prop := {
  o_nodup : NoDup (map p_name (p_cols b));
  o_usual : forall m x, In (m, x) (p_cons b) -> m = usual_name (cat n) x;
  o_named : forall x, has_cons b x -> exists c, named n c /\ cons_col x = cat c;
  o_col : forall x, has_cons b x -> pcol_at b (cons_col x) <> None }.
Record good (db : pdb) : Prop := {
  g_sorted : msorted db;
  g_tab : forall n b, table_named n -> mget (cat n) db = Some b -> tab_ok n b;
  g_other : forall m, (forall n, table_named n -> cat n <> m) -> mget m db = mget m db0 }.

Lemma good_put n b db : table_named n -> good db -> tab_ok n b -> good (mput (cat n) b db).
Proof using Nc.
  intros Hn [S T O] K. constructor.
  - now apply mput_sorted.
  - intros m b' Hm. rewrite mget_mput by exact S. destruct (keqb_spec (cat m) (cat n)) as [E|E]; [|now apply T].
    intros [= <-]. apply (nc_tables _ _ _ _ Nc) in E; [now subst|assumption..].
  - intros m Hm. rewrite mget_mput by exact S. destruct (keqb_spec m (cat n)) as [->|E]; [|now apply O]. exfalso. now apply (Hm n).
Qed.
Lemma good_del n db : table_named n -> good db -> good (mdel (cat n) db).
Proof using Nc.
  intros Hn [S T O]. constructor.
  - now apply mdel_sorted.
  - intros m b' Hm. rewrite mget_mdel. destruct (keqb_spec (cat m) (cat n)) as [E|E]; [discriminate|now apply T].
  - intros m Hm. rewrite mget_mdel. destruct (keqb_spec m (cat n)) as [->|E]; [|now apply O]. exfalso. now apply (Hm n).
Qed.

(** A name nothing in the table has is free. *)
Lemma free_name n c x db b : good db -> named n c -> cons_col x = cat c -> mget (cat n) db = Some b ->
  (forall y, has_cons b y -> usual_name (cat n) y <> usual_name (cat n) x) -> pick db (usual_name (cat n) x) = usual_name (cat n) x.
Proof using Hp Nc.
  intros G Hc Ex Gb Fr. pose proof (named_table _ _ Hc) as Hn. apply Hp.
  - destruct (nc_free _ _ _ _ Nc n c x Hc Ex) as [F1 F2].
    assert (D : forall T, (exists m, table_named m /\ cat m = T) \/ forall m, table_named m -> cat m <> T).
    { intros T. assert (X : forall l, (exists m, In m l /\ cat m = T) \/ forall m, In m l -> cat m <> T).
      { induction l as [|m l [(k & Hk & E)|IH]]; [right; intros ? []|left; exists k; split; [now right|exact E]|].
        destruct (string_dec (cat m) T) as [E|E]; [left; exists m; split; [now left|exact E]|]. right. intros k [<-|Hk]; auto. }
      destruct (X (mkeys (a_tables old) ++ mkeys (a_tables new))) as [(m & Hm & E)|H].
      - left. exists m. split; [|exact E]. apply in_app_iff in Hm as [Hm|Hm]; [left|right]; now apply has_table_keys.
      - right. intros m [Hm|Hm]; apply H, in_app_iff; [left|right]; now apply has_table_keys. }
    intros [H|(T & tb & y & GT & Hy)].
    + destruct (D (usual_name (cat n) x)) as [(m & Hm & E)|Ho]; [now apply (F1 m Hm)|].
      rewrite (g_other _ G _ Ho) in H. destruct (mget (usual_name (cat n) x) db0) as [b1|] eqn:G1; [|congruence].
      destruct (F2 _ b1 G1 Ho) as [H1 _]. now apply H1.
    + destruct (D T) as [(m & Hm & <-)|Ho].
      * pose proof (g_tab _ G m tb Hm GT) as K. pose proof (o_usual _ _ K _ _ Hy) as U.
        assert (Hs : has_cons tb y) by (apply in_map_iff; now exists (usual_name (cat n) x, y)).
        destruct (o_named _ _ K y Hs) as (c' & Hc' & Ey).
        assert (Enm : n = m).
        { pose proof (usual_same _ _ _ _ U) as Z. destruct x as [a|a|f], y as [a'|a'|g]; cbn [same_slot] in Z; try contradiction.
          - now apply (nc_tables _ _ _ _ Nc).
          - rewrite Ex, Ey in Z. now apply (nc_distinct _ _ _ _ Nc n c m c').
          - rewrite Ex, Ey in Z. now apply (nc_distinct _ _ _ _ Nc n c m c'). }
        subst m. assert (tb = b) by congruence. subst tb. apply (Fr y Hs). congruence.
      * rewrite (g_other _ G _ Ho) in GT. destruct (F2 T tb GT Ho) as [_ H2]. now apply (H2 y).
  - pose proof (nc_short _ _ _ _ Nc n c Hc) as L. destruct x as [a|a|f]; cbn [cons_col] in Ex; cbn [usual_name]; rewrite ?Ex;
      rewrite !str_length in *; cbn [String.length] in *; lia.
Qed.

Lemma some_cons_iff p b : some_cons p b = true <-> exists x, has_cons b x /\ p x = true.
Proof using.
  unfold some_cons, has_cons. rewrite existsb_exists. split.
  - intros (q & Hq & E). exists (snd q). split; [now apply in_map|exact E].
  - intros (x & Hx & E). apply in_map_iff in Hx as (q & <- & Hq). now exists q.
Qed.
Lemma add_step n c x db db' b : good db -> named n c -> cons_col x = cat c -> mget (cat n) db = Some b ->
  (is_primary x = false -> forall y, has_cons b y -> usual_name (cat n) y <> usual_name (cat n) x) ->
  (forall y k, x = PKey y -> In k (p_cols b) -> p_name k = y -> p_notnull k = true) ->
  add_cons pick db (cat n) x = Some db' ->
  exists b', mget (cat n) db' = Some b' /\ good db' /\ p_cols b' = p_cols b /\ (forall y, has_cons b' y <-> has_cons b y \/ y = x)
    /\ (is_primary x = true -> forall y, has_cons b y -> is_primary y = false).
Proof using Hp Nc.
  intros G Hc Ex Gb Fr Nn H. pose proof (named_table _ _ Hc) as Hn. unfold add_cons in H. rewrite Gb in H.
  destruct (is_some (pcol_at b (cons_col x)) && _) eqn:C; [|discriminate]. apply andb_true_iff in C as [C1 C2].
  assert (P : is_primary x = true -> forall y, has_cons b y -> is_primary y = false).
  { destruct x; try discriminate. intros _ y Hy. apply negb_true_iff in C2. destruct (is_primary y) eqn:E; [|reflexivity].
    assert (Z : some_cons is_primary b = true) by (apply some_cons_iff; eauto). congruence. }
  assert (Fr' : forall y, has_cons b y -> usual_name (cat n) y <> usual_name (cat n) x).
  { destruct (is_primary x) eqn:E; [|auto]. intros y Hy U. apply usual_slot in U. specialize (P eq_refl y Hy). destruct x, y; cbn in *; try discriminate; contradiction. }
  rewrite (free_name n c x db b G Hc Ex Gb Fr') in H. set (b' := with_cons b (p_cons b ++ [(usual_name (cat n) x, x)])).
  assert (E : db' = mput (cat n) b' db).
  { injection H as <-. unfold b'. destruct x as [a|a|f]; try reflexivity. rewrite set_notnull_id; [reflexivity|]. intros k Hk Ek. now apply (Nn a k). }
  assert (Kb : forall y, has_cons b' y <-> has_cons b y \/ y = x).
  { intros y. unfold has_cons, b'. cbn [with_cons p_cons]. rewrite map_app, in_app_iff. cbn. split; intros [Z|Z]; auto. destruct Z as [->|[]]; auto. }
  exists b'. split; [subst; apply mget_mput_eq|]. split; [|split; [reflexivity|split; [exact Kb|exact P]]].
  subst db'. apply good_put; [exact Hn|exact G|]. pose proof (g_tab _ G n b Hn Gb) as O. constructor.
  - apply O.
  - intros m y Hy. unfold b' in Hy. cbn [with_cons p_cons] in Hy. apply in_app_iff in Hy as [Hy|[[= <- <-]|[]]]; [now apply O|reflexivity].
  - intros y Hy. apply Kb in Hy as [Hy| ->]; [now apply O|eauto].
  - intros y Hy. change (pcol_at b (cons_col y) <> None). apply Kb in Hy as [Hy| ->]; [now apply O|]. destruct (pcol_at b (cons_col x)); [discriminate|discriminate C1].
Qed.
Lemma drop_step n x e db db' b : good db -> table_named n -> mget (cat n) db = Some b -> drop_cons db e (cat n) (usual_name (cat n) x) = Some db' ->
  exists b', mget (cat n) db' = Some b' /\ good db' /\ p_cols b' = p_cols b /\ (forall y, has_cons b' y <-> has_cons b y /\ usual_name (cat n) y <> usual_name (cat n) x).
Proof using Nc.
  intros G Hn Gb H. pose proof (g_tab _ G n b Hn Gb) as O. unfold drop_cons in H. rewrite Gb in H.
  set (rest := filter (fun p => negb (String.eqb (fst p) (usual_name (cat n) x))) (p_cons b)) in *.
  assert (Kr : forall y, In y (map snd rest) <-> has_cons b y /\ usual_name (cat n) y <> usual_name (cat n) x).
  { intros y. unfold rest, has_cons. rewrite !in_map_iff. split.
    - intros ((m & y') & <- & Hq). apply filter_In in Hq as [Hq E]. cbn in *. split; [now exists (m, y')|].
      rewrite <- (o_usual _ _ O _ _ Hq). now apply negb_true_iff, String.eqb_neq in E.
    - intros [((m & y') & <- & Hq) E]. exists (m, y'). split; [reflexivity|]. apply filter_In. split; [exact Hq|]. cbn in *.
      rewrite <- (o_usual _ _ O _ _ Hq) in E. now apply negb_true_iff, String.eqb_neq. }
  destruct (find _ (p_cons b)) as [[m y]|] eqn:F.
  - match type of H with (if ?c then _ else _) = _ => destruct c; [discriminate|] end. injection H as <-.
    exists (with_cons b rest). split; [apply mget_mput_eq|]. split; [|split; [reflexivity|exact Kr]].
    apply good_put; [exact Hn|exact G|]. constructor.
    + apply O.
    + intros m' y' Hy. cbn in Hy. apply filter_In in Hy as [Hy _]. now apply O.
    + intros y' Hy. apply Kr in Hy as [Hy _]. now apply O.
    + intros y' Hy. apply Kr in Hy as [Hy _]. now apply (o_col _ _ O y').
  - destruct e; [|discriminate]. injection H as <-. exists b. split; [exact Gb|]. split; [exact G|]. split; [reflexivity|].
    intros y. split; [|now intros [? _]]. intros Hy. split; [exact Hy|]. intros U. unfold has_cons in Hy. apply in_map_iff in Hy as ((m & y') & <- & Hq).
    pose proof (find_none _ _ F _ Hq) as Z. cbn in Z, U. rewrite (o_usual _ _ O _ _ Hq), U, String.eqb_refl in Z. discriminate.
Qed.
Lemma alter_step n c ok f db db' b : good db -> table_named n -> mget (cat n) db = Some b -> (forall k, p_name (f k) = p_name k) ->
  alter_col db (cat n) c ok f = Some db' ->
  exists b' k, mget (cat n) db' = Some b' /\ good db' /\ p_cons b' = p_cons b /\ pcol_at b c = Some k /\ ok k = true
    /\ pcol_at b' c = Some (f k) /\ forall y, y <> c -> pcol_at b' y = pcol_at b y.
Proof using Nc.
  intros G Hn Gb Hf H. unfold alter_col in H. rewrite Gb in H. destruct (pcol_at b c) as [k|] eqn:Gk; [|discriminate]. destruct (ok k) eqn:Ok; [|discriminate].
  injection H as <-. exists (set_col b c f), k. split; [apply mget_mput_eq|]. split; [|repeat split; try assumption].
  - apply good_put; [exact Hn|exact G|]. pose proof (g_tab _ G n b Hn Gb) as O. constructor.
    + rewrite set_col_names by exact Hf. apply O.
    + apply O.
    + apply O.
    + intros x Hx. pose proof (o_col _ _ O x Hx) as N. rewrite pcol_at_set by exact Hf. destruct (String.eqb_spec (cons_col x) c) as [E|_]; [|exact N].
      rewrite Gk. discriminate.
  - rewrite pcol_at_set by exact Hf. now rewrite String.eqb_refl, Gk.
  - intros y Ny. rewrite pcol_at_set by exact Hf. apply String.eqb_neq in Ny. now rewrite Ny.
Qed.
(** Constraints that come with columns. *)
Lemma add_all_step n xs : forall db db' b, good db -> table_named n -> mget (cat n) db = Some b ->
  (forall x, In x xs -> (exists c, named n c /\ cons_col x = cat c) /\ match x with PRef _ => False | _ => True end) ->
  NoDup xs -> (forall x, In x xs -> is_primary x = false -> ~ has_cons b x) ->
  (forall y k, In (PKey y) xs -> In k (p_cols b) -> p_name k = y -> p_notnull k = true) ->
  add_all pick db (cat n) xs = Some db' ->
  exists b', mget (cat n) db' = Some b' /\ good db' /\ p_cols b' = p_cols b /\ (forall y, has_cons b' y <-> has_cons b y \/ In y xs)
    /\ (forall x, In x xs -> is_primary x = true -> forall y, has_cons b y -> is_primary y = false).
Proof using Hp Nc.
  induction xs as [|x xs IH]; intros db db' b G Hn Gb Hx ND Fr Nn H; cbn in H.
  - injection H as <-. exists b. split; [exact Gb|]. split; [exact G|]. split; [reflexivity|]. split; [cbn; tauto|]. intros ? [].
  - destruct (add_cons pick db (cat n) x) as [db1|] eqn:E; [|discriminate]. inversion ND as [|? ? Nx ND']; subst.
    destruct (Hx x (or_introl eq_refl)) as [(c & Hc & Ec) Hr].
    destruct (add_step n c x db db1 b G Hc Ec Gb) as (b1 & G1 & Gd1 & C1 & K1 & P1); [| |exact E|].
    { intros Px y Hy U. apply usual_slot in U. apply (Fr x (or_introl eq_refl) Px). destruct x, y; try contradiction; try discriminate. now subst. }
    { intros y k -> Hk Ek. apply (Nn y k); auto. now left. }
    destruct (IH db1 db' b1) as (b' & G' & Gd' & C' & K' & P'); try assumption.
    { intros y Hy. apply Hx. now right. }
    { intros y Hy Py Z. apply K1 in Z as [Z| ->]; [|contradiction]. apply (Fr y); auto. now right. }
    { intros y k Hy. rewrite C1. intros Hk. apply Nn; auto. now right. }
    exists b'. split; [exact G'|]. split; [exact Gd'|]. split; [congruence|]. split.
    + intros y. rewrite K', K1. cbn. split; intros Z; [destruct Z as [[Z|Z]|Z]|destruct Z as [Z|[Z|Z]]]; auto.
    + intros y [<-|Hy] Py; [now apply P1|]. intros z Hz. apply (P' y Hy Py). apply K1. now left.
Qed.
End Local.
