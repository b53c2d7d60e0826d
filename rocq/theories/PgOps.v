(** What the statements of one operation do to a table of a PostgreSQL catalogue. *)
From Verif Require Import Base SqlVal Sql Query QuerySpec Adb AdbSpec AdbProofs Literal LiteralSpec
  Ddl DdlProofs DdlSpec SqliteDdl SqliteDdlProofs DdlFine PgDdl PgSem PgSpec PgDdlProofs PgLocal.

Lemma serial_none n : upper n <> "SERIAL"%string -> upper n <> "BIGSERIAL"%string -> serial [n] = None.
Proof.
  unfold serial. cbn [map]. generalize (upper n). intros s H1 H2.
  repeat match goal with |- match ?x with _ => _ end = _ => destruct x; try reflexivity; try congruence end.
Qed.
Lemma fine_serial n : type_name_fine n -> serial [n] = None.
Proof.
  intros [_ Ty]. unfold kmem in Ty. cbn [existsb] in Ty. apply orb_false_iff in Ty as [T1 Ty]. apply orb_false_iff in Ty as [T2 _].
  apply serial_none; intros E; rewrite E in *; discriminate.
Qed.
Lemma decl_serial c : pg_column_fine c -> is_some (serial (decl_words c)) = c_auto c.
Proof.
  intros (_ & Ty & Au & _). unfold decl_words. destruct (type_denotes (c_type c)) as [[t|n]|k]; [| |contradiction].
  - destruct (c_auto c) eqn:A.
    + destruct (Au eq_refl) as [[[= ->]|[= ->]] _]; reflexivity.
    + destruct t; try reflexivity. cbn [pg_type]. now rewrite fine_serial.
  - assert (A : c_auto c = false).
    { destruct (c_auto c) eqn:A; [|reflexivity]. destruct (Au eq_refl) as [[[=]|[=]] _]. }
    now rewrite A, fine_serial.
Qed.
Lemma decl_stored c : pg_column_fine c -> stored_type (decl_words c) = pg_words c.
Proof.
  intros F. pose proof (decl_serial c F) as S. destruct F as (_ & Ty & Au & _). unfold decl_words, pg_words in *.
  destruct (type_denotes (c_type c)) as [[t|n]|k]; [| |contradiction].
  - destruct (c_auto c) eqn:A.
    + destruct (Au eq_refl) as [[[= ->]|[= ->]] _]; reflexivity.
    + destruct t; try reflexivity. cbn [pg_type]. unfold stored_type. now rewrite fine_serial.
  - unfold stored_type. now rewrite fine_serial.
Qed.
Lemma decl_upper c : pg_column_fine c -> c_auto c = false -> map upper (decl_words c) = pg_words c.
Proof.
  intros F A. rewrite <- (decl_stored c F). unfold stored_type. pose proof (decl_serial c F) as S. rewrite A in S.
  destruct (serial (decl_words c)); [discriminate|reflexivity].
Qed.
Lemma default_not_next l : default_of l <> Some DNext.
Proof. unfold default_of. destruct (is_null l); discriminate. Qed.

Ltac four := split; [assumption|split; [assumption|split; [reflexivity || assumption|]]].
Ltac five := four; split; [assumption|assumption || reflexivity].

Section Ops.
Variable pick : pdb -> string -> string.
Variable allows : pdb -> ddl -> bool.
Hypothesis Hp : picks pick.
Variable kw : string -> bool.
Variable show : f64 -> string.
Variables old new : ADB.
Variable db0 : pdb.
Hypothesis Nc : names_clear kw old new db0.
Notation cat := (cat kw).
Notation named := (named old new).
Notation table_named := (table_named old new).
Notation good := (good kw old new db0).
Notation tab_ok := (tab_ok kw old new).
Notation rs := (map (respell kw lower)).
Notation run := (prun pick allows).

Lemma run_cons db x r db' : run db (x :: r) = Some db' -> exists db1, pexec0 pick db x = Some db1 /\ run db1 r = Some db'.
Proof. cbn. unfold pexec. destruct (allows db x); [|discriminate]. destruct (pexec0 pick db x) as [db1|]; [eauto|discriminate]. Qed.
Lemma run_nil db db' : run db [] = Some db' -> db' = db.
Proof. now intros [= <-]. Qed.
Lemma run_app db xs ys db' : run db (rs (xs ++ ys)) = Some db' -> exists db1, run db (rs xs) = Some db1 /\ run db1 (rs ys) = Some db'.
Proof. rewrite map_app, prun_app. destruct (run db (rs xs)) as [db1|]; [eauto|discriminate]. Qed.

(** ** Declarations *)
Lemma declared c l : pg_column_fine c -> pg_declares kw c (pcol_of (respell_col kw lower (with_default (pg_coldef c) l))).
Proof.
  intros F. pose proof (decl_serial c F) as S. pose proof (decl_stored c F) as T. destruct F as (_ & _ & _ & Nl & _).
  unfold pg_declares, pcol_of. cbn [respell_col with_default pg_coldef cd_name cd_type cd_cons p_name p_type p_notnull p_default].
  split; [reflexivity|]. split; [exact T|]. rewrite S. split.
  - destruct (c_nullable c), (c_pk c), (c_auto c), (c_unique c); cbn; try reflexivity; exfalso; assert (true = false) by auto; discriminate.
  - destruct (c_auto c); [tauto|]. split; [|discriminate]. intros E. exfalso.
    destruct (defaults _); [discriminate|]. now apply default_not_next in E.
Qed.
Lemma declared_plain c : pg_column_fine c -> pg_declares kw c (pcol_of (respell_col kw lower (pg_coldef c))).
Proof.
  intros F. pose proof (decl_serial c F) as S. pose proof (decl_stored c F) as T. destruct F as (_ & _ & _ & Nl & _).
  unfold pg_declares, pcol_of. cbn [respell_col pg_coldef cd_name cd_type cd_cons p_name p_type p_notnull p_default].
  split; [reflexivity|]. split; [exact T|]. rewrite S. split.
  - destruct (c_nullable c), (c_pk c), (c_auto c), (c_unique c); cbn; try reflexivity; exfalso; assert (true = false) by auto; discriminate.
  - destruct (c_auto c); [tauto|]. split; [|discriminate]. intros E. exfalso.
    destruct (defaults _); [discriminate|]. now apply default_not_next in E.
Qed.
Definition own_of (c : AColumn) : list pcons :=
  (if c_pk c then [PKey (cat (c_name c))] else []) ++ (if c_unique c then [PUnique (cat (c_name c))] else []).
Lemma own_default c l : own_cons (respell_col kw lower (with_default (pg_coldef c) l)) = own_of c.
Proof. unfold own_cons, own_of. cbn. destruct (c_nullable c), (c_pk c), (c_unique c); reflexivity. Qed.
Lemma own_plain c : own_cons (respell_col kw lower (pg_coldef c)) = own_of c.
Proof. unfold own_cons, own_of. cbn. destruct (c_nullable c), (c_pk c), (c_unique c); reflexivity. Qed.
Lemma own_In c x : In x (own_of c) <-> match x with PKey y => c_pk c = true /\ y = cat (c_name c) | PUnique y => c_unique c = true /\ y = cat (c_name c) | PRef _ => False end.
Proof.
  unfold own_of. rewrite in_app_iff.
  assert (A : forall (b : bool) (a : pcons), In x (if b then [a] else []) <-> b = true /\ x = a).
  { intros [] a; cbn; split; [intros [<-|[]]; auto|intros [_ ->]; now left|intros []|intros [[=] _]]. }
  rewrite !A. destruct x as [y|y|f].
  - split; [intros [[H1 H2]|[_ H2]]; [|discriminate]|intros [H1 ->]; auto]. injection H2 as ->. auto.
  - split; [intros [[_ H2]|[H1 H2]]; [discriminate|]|intros [H1 ->]; auto]. injection H2 as ->. auto.
  - split; [intros [[_ H2]|[_ H2]]; discriminate|intros []].
Qed.
Lemma own_nodup c : NoDup (own_of c).
Proof. unfold own_of. destruct (c_pk c), (c_unique c); cbn; repeat constructor; cbn; intuition discriminate. Qed.
Lemma own_col c x : In x (own_of c) -> cons_col x = cat (c_name c).
Proof. rewrite own_In. destruct x; cbn; tauto. Qed.
Lemma wants_split c x : wants kw c x <-> In x (own_of c) \/ exists f, x = PRef f /\ pg_refers kw c f.
Proof.
  rewrite own_In. destruct x as [y|y|f]; cbn; split; intros H; auto.
  - destruct H as [H|(f & [=] & _)]; exact H.
  - destruct H as [H|(f & [=] & _)]; exact H.
  - right. eauto.
  - destruct H as [[]|(g & [= ->] & H)]; exact H.
Qed.
Lemma wants_col c x : wants kw c x -> cons_col x = cat (c_name c).
Proof. destruct x as [y|y|f]; cbn; [tauto|tauto|]. intros (r & _ & ->). reflexivity. Qed.
Lemma fk_refers c : pg_column_fine c ->
  (fk_of c = [] /\ forall f, ~ pg_refers kw c f) \/ (exists f, fk_of c = [f] /\ forall g, pg_refers kw c g <-> g = respell_fk kw lower f).
Proof.
  intros (_ & _ & _ & _ & R). unfold fk_of, pg_refers. destruct (c_ref c) as [[r|]|]; [|contradiction|].
  - right. eexists. split; [reflexivity|]. intros g. split; [intros (r' & [= <-] & ->); reflexivity|intros ->; eauto].
  - left. split; [reflexivity|]. intros f (r & [=] & _).
Qed.

(** ** References *)
Lemma fkey_op n c db db' b : good db -> named n (c_name c) -> pg_column_fine c -> mget (cat n) db = Some b ->
  (forall g, fk_col g = cat (c_name c) -> ~ has_cons b (PRef g)) -> run db (rs (pg_fk_ast n c)) = Some db' ->
  exists b', mget (cat n) db' = Some b' /\ good db' /\ p_cols b' = p_cols b
    /\ forall x, has_cons b' x <-> has_cons b x \/ exists f, x = PRef f /\ pg_refers kw c f.
Proof.
  intros G Hc Fc Gb Fr H. unfold pg_fk_ast in H. destruct (fk_refers c Fc) as [[E Z]|(f & E & Z)]; rewrite E in H; cbn [map] in H.
  - apply run_nil in H. subst db'. exists b. four. intros x. split; [now left|]. intros [K|(f' & _ & K)]; [exact K|now apply Z in K].
  - apply run_cons in H as (db1 & H & H'). apply run_nil in H'. subst db'. cbn [respell pexec0] in H.
    assert (Ec : fk_col (respell_fk kw lower f) = cat (c_name c)).
    { destruct (proj2 (Z _) eq_refl) as (r & _ & E'). rewrite E'. reflexivity. }
    destruct (add_step pick Hp kw old new db0 Nc n (c_name c) (PRef (respell_fk kw lower f)) db db1 b G Hc Ec Gb) as (b' & G' & Gd & C & K & _); [| |exact H|].
    + intros _ y Hy U. apply usual_slot in U. destruct y as [|y|g]; try contradiction. apply (Fr g); [congruence|exact Hy].
    + intros y k [=].
    + exists b'. split; [exact G'|]. split; [exact Gd|]. split; [exact C|]. intros x. rewrite K. split; (intros [X|X]; [now left|right]).
      * subst x. eexists. split; [reflexivity|]. now apply Z.
      * destruct X as (g & -> & X). now apply Z in X as ->.
Qed.

(** ** Columns *)
Lemma find_app {A} (p : A -> bool) l l' : find p (l ++ l') = match find p l with Some x => Some x | None => find p l' end.
Proof. induction l as [|x l IH]; [reflexivity|]. cbn. destruct (p x); [reflexivity|exact IH]. Qed.
Lemma add_op n c db db' b : good db -> named n (c_name c) -> pg_column_fine c -> default_fine c -> mget (cat n) db = Some b ->
  run db (rs (pg_op_ast show (AddColumn n c))) = Some db' ->
  exists b', mget (cat n) db' = Some b' /\ good db' /\ pcol_at b (cat (c_name c)) = None
    /\ (exists k, pcol_at b' (cat (c_name c)) = Some k /\ pg_declares kw c k)
    /\ (forall y, y <> cat (c_name c) -> pcol_at b' y = pcol_at b y)
    /\ (forall x, has_cons b' x <-> has_cons b x \/ wants kw c x)
    /\ (c_pk c = true -> forall y, has_cons b y -> is_primary y = false).
Proof.
  intros G Hc Fc (v & Dv & _) Gb H. pose proof (named_table _ _ _ _ Hc) as Hn. cbn [pg_op_ast] in H. rewrite Dv in H. cbn [map] in H.
  apply run_cons in H as (db1 & H & H'). cbn [respell pexec0] in H. set (cc := cat (c_name c)) in *.
  set (cd := respell_col kw lower (with_default (pg_coldef c) (lit_of show v))) in *. unfold padd_col in H.
  change (spelled kw lower n) with (cat n) in H. rewrite Gb in H.
  change (cd_name cd) with cc in H.
  destruct (pcol_at b cc) as [k|] eqn:Gk; [discriminate|]. cbn [is_some orb] in H. destruct (coldef_ok cd); [|discriminate]. cbn [negb] in H.
  set (b1 := with_cols b (p_cols b ++ [pcol_of cd])) in *. pose proof (g_tab _ _ _ _ _ G n b Hn Gb) as O.
  assert (P1 : forall y, pcol_at b1 y = match pcol_at b y with Some k => Some k | None => if String.eqb cc y then Some (pcol_of cd) else None end).
  { intros y. unfold pcol_at, b1. cbn [with_cols p_cols]. rewrite find_app. reflexivity. }
  assert (O1 : tab_ok n b1).
  { constructor.
    - unfold b1. cbn [with_cols p_cols]. rewrite map_app. apply NoDup_app_iff. split; [apply O|]. split; [repeat constructor; auto|].
      intros y Hy [<-|[]]. now apply pcol_at_None in Gk.
    - apply O.
    - apply O.
    - intros x Hx. rewrite P1. pose proof (o_col _ _ _ _ _ O x Hx) as Z. now destruct (pcol_at b (cons_col x)). }
  unfold cd in H at 1. rewrite own_default in H.
  destruct (add_all_step pick Hp kw old new db0 Nc n (own_of c) (mput (cat n) b1 db) db1 b1) as (b2 & G2 & Gd2 & C2 & K2 & Pk2); try assumption.
  - now apply good_put.
  - apply mget_mput_eq.
  - intros x Hx. split; [exists (c_name c); split; [exact Hc|now apply own_col]|]. apply own_In in Hx. now destruct x.
  - apply own_nodup.
  - intros x Hx _ Z. apply (o_col _ _ _ _ _ O x Z). rewrite (own_col c x Hx). exact Gk.
  - intros y k Hy Hk Ek. apply own_In in Hy as [Hy ->]. unfold b1 in Hk. cbn [with_cols p_cols] in Hk. apply in_app_iff in Hk as [Hk|[<-|[]]].
    + exfalso. apply pcol_at_None in Gk. apply Gk. unfold cc. rewrite <- Ek. now apply in_map.
    + destruct (declared c (lit_of show v) Fc) as (_ & _ & Dn & _). fold cd in Dn. rewrite Dn. destruct Fc as (_ & _ & _ & N & _). rewrite N; auto.
  - destruct (fkey_op n c db1 db' b2) as (b' & G' & Gd' & C' & K'); try assumption.
    + intros g Eg Z. apply K2 in Z as [Z|Z]; [|apply own_In in Z; exact Z]. apply (o_col _ _ _ _ _ O _ Z). cbn [cons_col]. rewrite Eg. exact Gk.
    + assert (P' : forall y, pcol_at b' y = pcol_at b1 y) by (intros y; unfold pcol_at; now rewrite C', C2).
      exists b'. split; [exact G'|]. split; [exact Gd'|]. split; [reflexivity|]. split; [|split; [|split]].
      * exists (pcol_of cd). rewrite P', P1, Gk, String.eqb_refl. split; [reflexivity|]. now apply declared.
      * intros y Ny. rewrite P', P1. destruct (String.eqb_spec cc y) as [->|_]; [congruence|]. now destruct (pcol_at b y).
      * intros x. rewrite K', K2, wants_split. change (has_cons b1 x) with (has_cons b x). tauto.
      * intros Pk. apply (Pk2 (PKey cc)); [|reflexivity]. now apply own_In.
Qed.
Lemma remove_op n m db db' b : good db -> named n m -> mget (cat n) db = Some b ->
  run db (rs (pg_op_ast show (RemoveColumn n m))) = Some db' ->
  exists b', mget (cat n) db' = Some b' /\ good db' /\ pcol_at b' (cat m) = None
    /\ (forall y, y <> cat m -> pcol_at b' y = pcol_at b y)
    /\ (forall x, has_cons b' x <-> has_cons b x /\ cons_col x <> cat m).
Proof.
  intros G Hm Gb H. pose proof (named_table _ _ _ _ Hm) as Hn. pose proof (g_tab _ _ _ _ _ G n b Hn Gb) as O.
  cbn [pg_op_ast map] in H. apply run_cons in H as (db1 & H & H'). apply run_nil in H'. subst db'. cbn [respell pexec0] in H. unfold pdrop_col in H.
  change (spelled kw lower n) with (cat n) in H. change (spelled kw lower m) with (cat m) in H. rewrite Gb in H. destruct (_ && _); [|discriminate].
  injection H as <-. set (b' := {| p_cols := _; p_cons := _ |}). exists b'. split; [apply mget_mput_eq|].
  assert (N' : pcol_at b' (cat m) = None).
  { apply pcol_at_None. unfold b'. cbn [p_cols]. intros H. apply in_map_iff in H as (k & E & Hk). apply filter_In in Hk as [_ Hk].
    rewrite E, String.eqb_refl in Hk. discriminate. }
  assert (P' : forall y, y <> cat m -> pcol_at b' y = pcol_at b y).
  { intros y Ny. unfold pcol_at, b'. cbn [p_cols]. clear - Ny. induction (p_cols b) as [|k l IH]; [reflexivity|]. cbn.
    destruct (String.eqb_spec (p_name k) (cat m)) as [E|E]; cbn.
    - rewrite IH. destruct (String.eqb_spec (p_name k) y) as [E'|_]; [congruence|reflexivity].
    - now rewrite IH. }
  assert (K' : forall x, has_cons b' x <-> has_cons b x /\ cons_col x <> cat m).
  { intros x. unfold has_cons, b'. cbn [p_cons]. rewrite !in_map_iff. split.
    - intros (q & <- & Hq). apply filter_In in Hq as [Hq E]. split; [now exists q|]. now apply negb_true_iff, String.eqb_neq in E.
    - intros [(q & <- & Hq) E]. exists q. split; [reflexivity|]. apply filter_In. split; [exact Hq|]. now apply negb_true_iff, String.eqb_neq. }
  split; [|split; [exact N'|split; [exact P'|exact K']]]. apply good_put; [exact Nc|exact Hn|exact G|]. constructor.
  - unfold b'. cbn [p_cols]. pose proof (o_nodup _ _ _ _ _ O) as ND. clear - ND. induction (p_cols b) as [|k l IH]; [constructor|]. cbn in *. inversion ND as [|? ? Nk ND']; subst.
    destruct (String.eqb (p_name k) (cat m)); cbn; [now apply IH|]. constructor; [|now apply IH].
    intros H. apply in_map_iff in H as (j & E & Hj). apply filter_In in Hj as [Hj _]. apply Nk. rewrite <- E. now apply in_map.
  - intros q x Hq. unfold b' in Hq. cbn [p_cons] in Hq. apply filter_In in Hq as [Hq _]. now apply O.
  - intros x Hx. apply K' in Hx as [Hx _]. now apply O.
  - intros x Hx. apply K' in Hx as [Hx Ne]. rewrite P' by exact Ne. now apply (o_col _ _ _ _ _ O x).
Qed.

(** ** Changes *)
Lemma change_type n o c db db' b k : good db -> table_named n -> pg_column_fine o -> pg_column_fine c ->
  mget (cat n) db = Some b -> pcol_at b (cat (c_name o)) = Some k -> p_type k = pg_words o ->
  run db (rs (if same_type_b o c then [] else [SetType n (c_name o) (decl_words c)])) = Some db' ->
  exists b', mget (cat n) db' = Some b' /\ good db' /\ p_cons b' = p_cons b
    /\ pcol_at b' (cat (c_name o)) = Some (set_type (pg_words c) k) /\ forall y, y <> cat (c_name o) -> pcol_at b' y = pcol_at b y.
Proof.
  intros G Hn Fo Fc Gb Gk Tk H. destruct (same_type_b o c) eqn:E; cbn [map] in H.
  - apply run_nil in H. subst db'. exists b. split; [exact Gb|]. split; [exact G|]. split; [reflexivity|]. split; [|reflexivity].
    assert (W : pg_words o = pg_words c).
    { unfold same_type_b in E. destruct (typeid_denotes o) as [(i & Ei & Di)|(z & Di)]; [|destruct Fo as (_ & X & _); rewrite Di in X; contradiction].
      destruct (typeid_denotes c) as [(j & Ej & Dj)|(z & Dj)]; [|destruct Fc as (_ & X & _); rewrite Dj in X; contradiction].
      rewrite Ei, Ej in E. destruct (typeid_eqb_spec i j) as [->|]; [|discriminate]. unfold pg_words. now rewrite Di, Dj. }
    rewrite Gk, <- W, <- Tk. now destruct k.
  - apply run_cons in H as (db1 & H & H'). apply run_nil in H'. subst db'. cbn [respell pexec0] in H.
    destruct (alter_step kw old new db0 Nc n (cat (c_name o)) _ (set_type (map upper (decl_words c))) db db1 b G Hn Gb (fun _ => eq_refl) H)
      as (b' & k' & G' & Gd & C & Gk' & Ok & S & Ot).
    assert (k' = k) by congruence. subst k'. exists b'. split; [exact G'|]. split; [exact Gd|]. split; [exact C|]. split; [|exact Ot].
    rewrite S. do 2 f_equal. apply negb_true_iff in Ok. rewrite (decl_serial c Fc) in Ok. now apply decl_upper.
Qed.
Lemma change_null n o c db db' b k : good db -> table_named n ->
  mget (cat n) db = Some b -> pcol_at b (cat (c_name o)) = Some k -> p_notnull k = negb (c_nullable o) ->
  run db (rs (if Bool.eqb (c_nullable o) (c_nullable c) then [] else [SetNotNull n (c_name o) (negb (c_nullable c))])) = Some db' ->
  exists b', mget (cat n) db' = Some b' /\ good db' /\ p_cons b' = p_cons b
    /\ pcol_at b' (cat (c_name o)) = Some (set_notnull (negb (c_nullable c)) k) /\ forall y, y <> cat (c_name o) -> pcol_at b' y = pcol_at b y.
Proof.
  intros G Hn Gb Gk Tk H. destruct (Bool.eqb_spec (c_nullable o) (c_nullable c)) as [E|E]; cbn [map] in H.
  - apply run_nil in H. subst db'. exists b. split; [exact Gb|]. split; [exact G|]. split; [reflexivity|]. split; [|reflexivity].
    rewrite Gk, <- E, <- Tk. now destruct k.
  - apply run_cons in H as (db1 & H & H'). apply run_nil in H'. subst db'. cbn [respell pexec0] in H.
    destruct (alter_step kw old new db0 Nc n (cat (c_name o)) _ (set_notnull (negb (c_nullable c))) db db1 b G Hn Gb (fun _ => eq_refl) H)
      as (b' & k' & G' & Gd & C & Gk' & Ok & S & Ot).
    assert (k' = k) by congruence. subst k'. exists b'. five.
Qed.
Definition promotes (o c : AColumn) : bool := negb (c_pk o) && c_pk c.
Lemma change_key n o c db db' b k : good db -> named n (c_name o) -> c_name o = c_name c -> cat n = lower n ->
  mget (cat n) db = Some b -> pcol_at b (cat (c_name o)) = Some k -> (c_pk c = true -> p_notnull k = true) ->
  run db (rs (if Bool.eqb (c_pk o) (c_pk c) then []
      else if c_pk c then [DropConstraint true n (n ++ "_pkey"); AddPrimaryKey n (c_name c)] else [])) = Some db' ->
  exists b', mget (cat n) db' = Some b' /\ good db' /\ p_cols b' = p_cols b
    /\ forall x, has_cons b' x <-> if promotes o c then (has_cons b x /\ is_primary x = false) \/ x = PKey (cat (c_name o)) else has_cons b x.
Proof.
  intros G Hc En Pl Gb Gk Nn H. pose proof (named_table _ _ _ _ Hc) as Hn. unfold promotes.
  assert (Idle : db' = db -> (negb (c_pk o) && c_pk c) = false ->
    exists b', mget (cat n) db' = Some b' /\ good db' /\ p_cols b' = p_cols b
      /\ forall x, has_cons b' x <-> if negb (c_pk o) && c_pk c then (has_cons b x /\ is_primary x = false) \/ x = PKey (cat (c_name o)) else has_cons b x).
  { intros -> ->. exists b. four. reflexivity. }
  destruct (c_pk o), (c_pk c); cbn [Bool.eqb] in H; try (apply run_nil in H; now apply Idle). clear Idle. cbn [negb andb map] in *.
  apply run_cons in H as (db1 & H & H'). apply run_cons in H' as (db2 & H2 & H'). apply run_nil in H'. subst db'. cbn [respell pexec0] in H, H2.
  change (spelled kw lower n) with (cat n) in H, H2. change (spelled kw lower (c_name c)) with (cat (c_name c)) in H2. rewrite <- En in H2.
  rewrite lower_app, <- Pl in H. change (lower "_pkey") with "_pkey"%string in H. set (cc := cat (c_name o)) in *.
  change (cat n ++ "_pkey")%string with (usual_name (cat n) (PKey cc)) in H.
  destruct (drop_step kw old new db0 Nc n (PKey cc) true db db1 b G Hn Gb H) as (b1 & G1 & Gd1 & C1 & K1).
  assert (K1' : forall x, has_cons b1 x <-> has_cons b x /\ is_primary x = false).
  { intros x. rewrite K1, usual_slot. destruct x; cbn; split; intros [? ?]; auto; try tauto; try discriminate. }
  destruct (add_step pick Hp kw old new db0 Nc n (c_name o) (PKey cc) db1 db2 b1 Gd1 Hc eq_refl G1) as (b2 & G2 & Gd2 & C2 & K2 & _); [| |exact H2|].
  - discriminate.
  - intros y k' [= <-] Hk Ek. rewrite C1 in Hk. pose proof (In_pcol_at b k' (o_nodup _ _ _ _ _ (g_tab _ _ _ _ _ G n b Hn Gb)) Hk) as Z.
    rewrite Ek in Z. assert (k' = k) by congruence. subst. now apply Nn.
  - exists b2. split; [exact G2|]. split; [exact Gd2|]. split; [congruence|]. intros x. now rewrite K2, K1'.
Qed.
Lemma change_unique n o c db db' b : good db -> named n (c_name o) -> c_name o = c_name c -> cat n = lower n -> cat (c_name o) = lower (c_name o) ->
  mget (cat n) db = Some b -> (has_cons b (PUnique (cat (c_name o))) <-> c_unique o = true) ->
  run db (rs (if Bool.eqb (c_unique o) (c_unique c) then []
      else if c_unique c then [AddUnique n (c_name c)]
      else [DropConstraint false n (n ++ "_" ++ c_name o ++ "_key")])) = Some db' ->
  exists b', mget (cat n) db' = Some b' /\ good db' /\ p_cols b' = p_cols b
    /\ forall x, has_cons b' x <-> if match x with PUnique y => String.eqb y (cat (c_name o)) | _ => false end then c_unique c = true else has_cons b x.
Proof.
  intros G Hc En Pl Pc Gb Ku H. pose proof (named_table _ _ _ _ Hc) as Hn. set (cc := cat (c_name o)) in *.
  destruct (c_unique o) eqn:Uo, (c_unique c) eqn:Uc; cbn [Bool.eqb map] in H.
  - apply run_nil in H. subst db'. exists b. four. intros x. destruct x as [y|y|f]; try reflexivity.
    destruct (String.eqb_spec y cc) as [->|]; [tauto|reflexivity].
  - apply run_cons in H as (db1 & H & H'). apply run_nil in H'. subst db'. cbn [respell pexec0] in H. rewrite !lower_app, <- Pl, <- Pc in H. fold cc in H.
    change (spelled kw lower n) with (cat n) in H.
    change (cat n ++ lower "_" ++ cc ++ lower "_key")%string with (usual_name (cat n) (PUnique cc)) in H.
    destruct (drop_step kw old new db0 Nc n (PUnique cc) false db db1 b G Hn Gb H) as (b1 & G1 & Gd1 & C1 & K1).
    exists b1. split; [exact G1|]. split; [exact Gd1|]. split; [exact C1|]. intros x. rewrite K1, usual_slot. destruct x as [y|y|f]; [tauto| |tauto].
    destruct (String.eqb_spec y cc) as [->|]; [|tauto]. split; [now intros [_ []]|discriminate].
  - apply run_cons in H as (db1 & H & H'). apply run_nil in H'. subst db'. cbn [respell pexec0] in H.
    change (spelled kw lower n) with (cat n) in H. change (spelled kw lower (c_name c)) with (cat (c_name c)) in H. rewrite <- En in H. fold cc in H.
    destruct (add_step pick Hp kw old new db0 Nc n (c_name o) (PUnique cc) db db1 b G Hc eq_refl Gb) as (b1 & G1 & Gd1 & C1 & K1 & _); [| |exact H|].
    + intros _ y Hy U. apply usual_slot in U. destruct y as [|y|]; try contradiction. subst y. apply Ku in Hy. discriminate.
    + intros y k [=].
    + exists b1. split; [exact G1|]. split; [exact Gd1|]. split; [exact C1|]. intros x. rewrite K1. destruct x as [y|y|f].
      * split; [intros [Z|[=]]; exact Z|now left].
      * destruct (String.eqb_spec y cc) as [->|Ny]; [tauto|]. split; [intros [Z|[= Z]]; [exact Z|contradiction]|now left].
      * split; [intros [Z|[=]]; exact Z|now left].
  - apply run_nil in H. subst db'. exists b. four. intros x. destruct x as [y|y|f]; try reflexivity.
    destruct (String.eqb_spec y cc) as [->|]; [tauto|reflexivity].
Qed.
Lemma change_default n o c db db' b k : good db -> table_named n -> mget (cat n) db = Some b -> pcol_at b (cat (c_name o)) = Some k ->
  run db (rs (if opt_eqb sqlval_eqb (c_default o) (c_default c) then []
      else [SetDefault n (c_name o) (option_map (lit_of show) (c_default c))])) = Some db' ->
  exists b', mget (cat n) db' = Some b' /\ good db' /\ p_cons b' = p_cons b
    /\ pcol_at b' (cat (c_name o)) = Some (if opt_eqb sqlval_eqb (c_default o) (c_default c) then k
         else set_default (match c_default c with Some v => default_of (lit_of show v) | None => None end) k)
    /\ forall y, y <> cat (c_name o) -> pcol_at b' y = pcol_at b y.
Proof.
  intros G Hn Gb Gk H. destruct (opt_eqb sqlval_eqb (c_default o) (c_default c)) eqn:E; cbn [map] in H.
  - apply run_nil in H. subst db'. exists b. five.
  - apply run_cons in H as (db1 & H & H'). apply run_nil in H'. subst db'. cbn [respell pexec0] in H.
    destruct (c_default c) as [v|]; cbn [option_map] in H.
    + destruct (alter_step kw old new db0 Nc n (cat (c_name o)) _ (set_default (default_of (lit_of show v))) db db1 b G Hn Gb (fun _ => eq_refl) H)
        as (b' & k' & G' & Gd & C & Gk' & Ok & S & Ot).
      assert (k' = k) by congruence. subst k'. exists b'. five.
    + destruct (alter_step kw old new db0 Nc n (cat (c_name o)) _ (set_default None) db db1 b G Hn Gb (fun _ => eq_refl) H)
        as (b' & k' & G' & Gd & C & Gk' & Ok & S & Ot).
      assert (k' = k) by congruence. subst k'. exists b'. five.
Qed.
Lemma change_ref n o c db db' b : good db -> named n (c_name o) -> c_name o = c_name c -> cat n = lower n -> cat (c_name o) = lower (c_name o) ->
  pg_column_fine o -> pg_column_fine c -> mget (cat n) db = Some b ->
  (forall f, fk_col f = cat (c_name o) -> has_cons b (PRef f) <-> pg_refers kw o f) ->
  run db (rs (if opt_eqb aref_eqb (c_ref o) (c_ref c) then []
      else (match c_ref o with Some _ => [DropConstraint false n (n ++ "_" ++ c_name o ++ "_fkey")] | None => [] end)
           ++ pg_fk_ast n c)) = Some db' ->
  exists b', mget (cat n) db' = Some b' /\ good db' /\ p_cols b' = p_cols b
    /\ forall x, has_cons b' x <-> match x with
                                   | PRef f => if String.eqb (fk_col f) (cat (c_name o)) then pg_refers kw c f else has_cons b x
                                   | _ => has_cons b x
                                   end.
Proof.
  intros G Hc En Pl Pc Fo Fc Gb Kr H. pose proof (named_table _ _ _ _ Hc) as Hn. set (cc := cat (c_name o)) in *.
  assert (Rc : forall f, pg_refers kw c f -> fk_col f = cc) by (intros f (r & _ & ->); unfold cc; now rewrite En).
  destruct (opt_eqb aref_eqb (c_ref o) (c_ref c)) eqn:E; cbn [map] in H.
  - apply run_nil in H. subst db'. exists b. split; [exact Gb|]. split; [exact G|]. split; [reflexivity|]. intros x.
    assert (Rr : forall f, pg_refers kw o f <-> pg_refers kw c f).
    { intros f. unfold pg_refers. rewrite <- En. apply (opt_eqb_iff _ same_ref) in E; [|apply aref_eqb_iff].
      destruct Fo as (_ & _ & _ & _ & Fo), Fc as (_ & _ & _ & _ & Fc). destruct (c_ref o) as [[r|]|], (c_ref c) as [[r'|]|]; cbn in E; try contradiction.
      - subst r'. reflexivity.
      - reflexivity. }
    destruct x as [y|y|f]; try reflexivity. destruct (String.eqb_spec (fk_col f) cc) as [Ef|]; [|reflexivity]. rewrite <- Rr. now apply Kr.
  - apply run_app in H as (db1 & H1 & H2).
    assert (X : exists b1, mget (cat n) db1 = Some b1 /\ good db1 /\ p_cols b1 = p_cols b
      /\ forall x, has_cons b1 x <-> has_cons b x /\ match x with PRef f => fk_col f <> cc | _ => True end).
    { destruct (c_ref o) as [r|] eqn:Ro; cbn [map] in H1.
      - apply run_cons in H1 as (db2 & H & H'). apply run_nil in H'. subst db2. cbn [respell pexec0] in H. rewrite !lower_app, <- Pl, <- Pc in H. fold cc in H.
        change (spelled kw lower n) with (cat n) in H.
        set (f0 := {| fk_col := cc; fk_table := ""; fk_ref := "" |}).
        change (cat n ++ lower "_" ++ cc ++ lower "_fkey")%string with (usual_name (cat n) (PRef f0)) in H.
        destruct (drop_step kw old new db0 Nc n (PRef f0) false db db1 b G Hn Gb H) as (b1 & G1 & Gd1 & C1 & K1).
        exists b1. split; [exact G1|]. split; [exact Gd1|]. split; [exact C1|]. intros x. rewrite K1, usual_slot. unfold f0. cbn [fk_col]. destruct x; tauto.
      - apply run_nil in H1. subst db1. exists b. split; [exact Gb|]. split; [exact G|]. split; [reflexivity|]. intros x. split; [|tauto].
        intros Hx. split; [exact Hx|]. destruct x as [y|y|f]; auto. intros Ef. apply Kr in Hx; [|exact Ef]. destruct Hx as (r & Hr & _). congruence. }
    destruct X as (b1 & G1 & Gd1 & C1 & K1). rewrite En in Hc.
    destruct (fkey_op n c db1 db' b1 Gd1 Hc Fc G1) as (b' & G' & Gd' & C' & K'); [|exact H2|].
    + intros g Eg Z. apply K1 in Z as [_ Z]. apply Z. unfold cc. now rewrite En.
    + exists b'. split; [exact G'|]. split; [exact Gd'|]. split; [congruence|]. intros x. rewrite K', K1.
      destruct x as [y|y|f].
      * split; [intros [[Z _]|(f & [=] & _)]; exact Z|tauto].
      * split; [intros [[Z _]|(f & [=] & _)]; exact Z|tauto].
      * destruct (String.eqb_spec (fk_col f) cc) as [Ef|Nf].
        -- split; [intros [[_ Z]|(g & [= ->] & Z)]; [contradiction|exact Z]|]. intros Z. right. eauto.
        -- split; [intros [[Z _]|(g & [= ->] & Z)]; [exact Z|]|tauto]. exfalso. apply Nf. now apply Rc.
Qed.

Definition lit_default (c : AColumn) (k : pcol) : Prop :=
  p_default k = match c_default c with Some v => default_of (lit_of show v) | None => None end.
Lemma change_op n o c db db' b k : good db -> named n (c_name o) -> c_name o = c_name c -> cat n = lower n -> cat (c_name o) = lower (c_name o) ->
  pg_column_fine o -> pg_column_fine c -> c_auto c = c_auto o -> mget (cat n) db = Some b ->
  pcol_at b (cat (c_name o)) = Some k -> pg_declares kw o k ->
  (forall x, cons_col x = cat (c_name o) -> is_primary x = false -> has_cons b x <-> wants kw o x) ->
  run db (rs (pg_op_ast show (ChangeColumn n o c))) = Some db' ->
  exists b' k', mget (cat n) db' = Some b' /\ good db'
    /\ pcol_at b' (cat (c_name o)) = Some k' /\ pg_declares kw c k'
    /\ (if opt_eqb sqlval_eqb (c_default o) (c_default c) then p_default k' = p_default k else lit_default c k')
    /\ (forall y, y <> cat (c_name o) -> pcol_at b' y = pcol_at b y)
    /\ (forall x, is_primary x = false -> cons_col x = cat (c_name o) -> has_cons b' x <-> wants kw c x)
    /\ (forall x, is_primary x = false -> cons_col x <> cat (c_name o) -> has_cons b' x <-> has_cons b x)
    /\ (forall y, has_cons b' (PKey y) <-> if promotes o c then y = cat (c_name o) else has_cons b (PKey y)).
Proof.
  intros G Hc En Pl Pc Fo Fc Au Gb Gk (Dn & Dt & Dl & Da) Kw H. pose proof (named_table _ _ _ _ Hc) as Hn. set (cc := cat (c_name o)) in *.
  cbn [pg_op_ast] in H. unfold pg_change_ast in H.
  apply run_app in H as (db1 & H1 & H). apply run_app in H as (db2 & H2 & H). apply run_app in H as (db3 & H3 & H).
  apply run_app in H as (db4 & H4 & H). apply run_app in H as (db5 & H5 & H6).
  destruct (change_type n o c db db1 b k G Hn Fo Fc Gb Gk Dt H1) as (b1 & G1 & Gd1 & C1 & S1 & P1).
  destruct (change_null n o c db1 db2 b1 _ Gd1 Hn G1 S1 Dl H2) as (b2 & G2 & Gd2 & C2 & S2 & P2).
  assert (Np : c_pk c = true -> c_nullable c = false) by (intros Z; apply Fc; auto).
  destruct (change_key n o c db2 db3 b2 _ Gd2 Hc En Pl G2 S2) as (b3 & G3 & Gd3 & C3 & K3); [intros Z; cbn; now rewrite (Np Z)|exact H3|].
  assert (K2 : forall x, has_cons b2 x <-> has_cons b x) by (intros x; unfold has_cons; now rewrite C2, C1).
  assert (K3n : forall x, is_primary x = false -> has_cons b3 x <-> has_cons b x).
  { intros x Px. rewrite K3. destruct (promotes o c); rewrite K2; [|reflexivity]. split; [intros [[Z _]| ->]; [exact Z|discriminate]|auto]. }
  assert (P3 : forall y, pcol_at b3 y = pcol_at b2 y) by (intros y; unfold pcol_at; now rewrite C3).
  destruct (change_unique n o c db3 db4 b3 Gd3 Hc En Pl Pc G3) as (b4 & G4 & Gd4 & C4 & K4); [|exact H4|].
  { rewrite K3n by reflexivity. rewrite Kw by reflexivity. cbn. fold cc. tauto. }
  assert (P4 : forall y, pcol_at b4 y = pcol_at b2 y) by (intros y; rewrite <- P3; unfold pcol_at; now rewrite C4).
  assert (S4 : pcol_at b4 (cat (c_name o)) = Some (set_notnull (negb (c_nullable c)) (set_type (pg_words c) k))) by now rewrite P4.
  destruct (change_default n o c db4 db5 b4 _ Gd4 Hn G4 S4 H5) as (b5 & G5 & Gd5 & C5 & S5 & P5).
  destruct (change_ref n o c db5 db' b5 Gd5 Hc En Pl Pc Fo Fc G5) as (b6 & G6 & Gd6 & C6 & K6); [|exact H6|].
  { intros f Ef. unfold has_cons. rewrite C5. fold (has_cons b4 (PRef f)). rewrite K4, K3n by reflexivity. rewrite Kw; [reflexivity|exact Ef|reflexivity]. }
  assert (K5 : forall x, has_cons b5 x <-> has_cons b4 x) by (intros x; unfold has_cons; now rewrite C5).
  assert (P6 : forall y, pcol_at b6 y = pcol_at b5 y) by (intros y; unfold pcol_at; now rewrite C6).
  set (k0 := set_notnull (negb (c_nullable c)) (set_type (pg_words c) k)) in *.
  set (k' := if opt_eqb sqlval_eqb (c_default o) (c_default c) then k0 else _) in S5.
  assert (Kd : p_name k' = p_name k /\ p_type k' = pg_words c /\ p_notnull k' = negb (c_nullable c)).
  { unfold k'. destruct (opt_eqb _ _ _); cbn; auto. }
  exists b6, k'. split; [exact G6|]. split; [exact Gd6|]. split; [now rewrite P6|]. split; [|split; [|split; [|split; [|split]]]].
  - destruct Kd as (K1' & K2' & K3'). split; [rewrite K1', Dn; unfold cc; now rewrite En|]. split; [exact K2'|]. split; [exact K3'|].
    unfold k'. destruct (opt_eqb sqlval_eqb (c_default o) (c_default c)) eqn:Ed; [rewrite Au; exact Da|]. cbn [set_default p_default].
    split.
    + destruct (c_default c); [intros Z; now apply default_not_next in Z|discriminate].
    + intros A. exfalso. assert (A' : c_auto o = true) by congruence.
      destruct Fo as (_ & _ & Fo & _), Fc as (_ & _ & Fc & _). destruct (Fo A') as [_ E1], (Fc A) as [_ E2]. rewrite E1, E2 in Ed. discriminate.
  - unfold k', lit_default. destruct (opt_eqb _ _ _); reflexivity.
  - intros y Ny. rewrite P6, P5, P4, P2, P1 by exact Ny. reflexivity.
  - intros x Px Ex. rewrite K6. destruct x as [y|y|f]; [discriminate| |].
    + cbn in Ex. subst y. rewrite K5, K4, String.eqb_refl. cbn. rewrite <- En. fold cc. tauto.
    + cbn in Ex. rewrite Ex, String.eqb_refl. reflexivity.
  - intros x Px Ex. rewrite K6. destruct x as [y|y|f]; [discriminate| |]; cbn in Ex; apply String.eqb_neq in Ex.
    + rewrite K5, K4. fold cc. rewrite Ex. now apply K3n.
    + fold cc. rewrite Ex. rewrite K5, K4. now apply K3n.
  - intros y. rewrite K6, K5, K4, K3. destruct (promotes o c); rewrite K2; [|reflexivity]. fold cc. split; [intros [[_ Z]|[= Z]]; [discriminate|exact Z]|intros ->; now right].
Qed.

(** ** Tables *)
Lemma distinct_NoDup l : distinct l = true -> NoDup l.
Proof.
  induction l as [|x l IH]; [constructor|]. cbn. intros H. apply andb_true_iff in H as [H1 H2]. constructor; [|now apply IH].
  intros Hx. apply negb_true_iff in H1. assert (Z : existsb (String.eqb x) l = true) by (apply existsb_exists; exists x; split; [exact Hx|apply String.eqb_refl]). congruence.
Qed.
Lemma own_all_nodup cs : NoDup (map (fun c => cat (c_name c)) cs) -> NoDup (flat_map own_of cs).
Proof.
  induction cs as [|c cs IH]; [constructor|]. cbn [map flat_map]. intros ND. inversion ND as [|? ? N ND']; subst. apply NoDup_app_iff. split; [apply own_nodup|]. split; [now apply IH|].
  intros x Hx Hy. apply in_flat_map in Hy as (c' & Hc' & Hy). apply N. apply own_col in Hx, Hy. rewrite <- Hx, Hy. apply (in_map (fun c => cat (c_name c)) _ _ Hc').
Qed.
Lemma create_op n t db db' : good db -> t_name t = n -> table_named n -> pg_table_fine t -> (forall c, In c (t_cols t) -> named n (c_name c)) ->
  run db (rs (pg_op_ast show (AddTable t))) = Some db' ->
  exists b', mget (cat n) db' = Some b' /\ good db'
    /\ (forall k, In k (p_cols b') <-> exists c, In c (t_cols t) /\ k = pcol_of (respell_col kw lower (pg_coldef c)))
    /\ forall x, has_cons b' x <-> exists c, In c (t_cols t) /\ In x (own_of c).
Proof.
  intros G Et Hn (_ & _ & Fc) Hc H. cbn [pg_op_ast map] in H. apply run_cons in H as (db1 & H & H'). apply run_nil in H'. subst db'.
  cbn [respell pexec0] in H. rewrite Et in H. change (spelled kw lower n) with (cat n) in H. unfold pcreate in H.
  destruct (is_some (mget (cat n) db)); [discriminate|]. destruct (distinct _ && _) eqn:D; [|discriminate]. apply andb_true_iff in D as [D _]. apply distinct_NoDup in D.
  set (cds := map (respell_col kw lower) (map pg_coldef (t_cols t))) in *. set (b1 := {| p_cols := map pcol_of cds; p_cons := [] |}) in *.
  assert (Nm : map cd_name cds = map (fun c => cat (c_name c)) (t_cols t)) by (unfold cds; rewrite !map_map; reflexivity).
  assert (Np : map p_name (map pcol_of cds) = map (fun c => cat (c_name c)) (t_cols t)) by (rewrite <- Nm, map_map; reflexivity).
  assert (Ow : flat_map own_cons cds = flat_map own_of (t_cols t)).
  { unfold cds. clear. induction (t_cols t) as [|c l IH]; [reflexivity|]. cbn [map flat_map]. now rewrite own_plain, IH. }
  rewrite Nm in D. pose proof (own_all_nodup _ D) as NDo.
  assert (Ia : forall x, In x (all_cons cds []) <-> In x (flat_map own_of (t_cols t))).
  { intros x. unfold all_cons. rewrite Ow. cbn [map]. rewrite app_nil_r, in_app_iff, !filter_In. destruct (is_primary x); cbn; intuition discriminate. }
  assert (O1 : tab_ok n b1).
  { constructor; unfold b1; cbn [p_cols p_cons].
    - now rewrite Np.
    - intros ? ? [].
    - intros ? [].
    - intros ? []. }
  assert (Cl : forall k, In k (p_cols b1) <-> exists c, In c (t_cols t) /\ k = pcol_of (respell_col kw lower (pg_coldef c))).
  { intros k. unfold b1, cds. cbn [p_cols]. rewrite !map_map, in_map_iff. split; intros (c & A & B); exists c; auto. }
  destruct (add_all_step pick Hp kw old new db0 Nc n (all_cons cds []) (mput (cat n) b1 db) db1 b1) as (b' & G' & Gd' & C' & K' & _); try assumption.
  - now apply good_put.
  - apply mget_mput_eq.
  - intros x Hx. apply Ia, in_flat_map in Hx as (c & Hx & Hy). split; [exists (c_name c); split; [now apply Hc|now apply own_col]|]. apply own_In in Hy. now destruct x.
  - unfold all_cons. rewrite Ow. cbn [map]. rewrite app_nil_r. apply NoDup_app_iff. split; [now apply NoDup_filter|]. split; [now apply NoDup_filter|].
    intros x Hx Hy. apply filter_In in Hx as [_ Hx], Hy as [_ Hy]. rewrite Hx in Hy. discriminate.
  - intros x _ _ [].
  - intros y k Hy Hk Ek. apply Ia, in_flat_map in Hy as (c & Hcc & Hy). apply own_In in Hy as [Pk ->]. apply Cl in Hk as (c' & Hc' & ->).
    rewrite Forall_forall in Fc. change (cat (c_name c') = cat (c_name c)) in Ek. apply (nc_columns _ _ _ _ Nc n) in Ek; [|now apply Hc..].
    destruct (declared_plain c' (Fc c' Hc')) as (_ & _ & Dn & _). rewrite Dn.
    assert (c' = c).
    { assert (ND : NoDup (map c_name (t_cols t))).
      { clear - D. rewrite <- (map_map c_name cat) in D. now apply NoDup_map_inv in D. }
      pose proof (In_col_by_name _ _ ND Hc') as Y1. pose proof (In_col_by_name _ _ ND Hcc) as Y2. rewrite Ek in Y1. congruence. }
    subst c'. destruct (Fc c Hcc) as (_ & _ & _ & Z & _). now rewrite Z by auto.
  - exists b'. split; [exact G'|]. split; [exact Gd'|]. split; [intros k; rewrite C'; apply Cl|]. intros x. rewrite K', Ia, in_flat_map. split; [intros [[]|Z]; exact Z|auto].
Qed.
Lemma refs_op n cs : forall db db' b, good db -> Forall pg_column_fine cs -> (forall c, In c cs -> named n (c_name c)) -> NoDup (map c_name cs) ->
  mget (cat n) db = Some b -> (forall f c, In c cs -> fk_col f = cat (c_name c) -> ~ has_cons b (PRef f)) ->
  run db (rs (flat_map (pg_fk_ast n) cs)) = Some db' ->
  exists b', mget (cat n) db' = Some b' /\ good db' /\ p_cols b' = p_cols b
    /\ forall x, has_cons b' x <-> has_cons b x \/ exists c f, In c cs /\ x = PRef f /\ pg_refers kw c f.
Proof.
  induction cs as [|c cs IH]; intros db db' b G Fc Hc ND Gb Fr H; cbn [flat_map] in H.
  - apply run_nil in H. subst db'. exists b. four. intros x. split; [now left|]. intros [Z|(c & f & [] & _)]; exact Z.
  - apply run_app in H as (db1 & H1 & H2). inversion Fc as [|? ? Fc1 Fc2]; subst. inversion ND as [|? ? N1 N2]; subst.
    destruct (fkey_op n c db db1 b G (Hc c (or_introl eq_refl)) Fc1 Gb) as (b1 & G1 & Gd1 & C1 & K1); [|exact H1|].
    { intros g Eg. apply (Fr g c); [now left|exact Eg]. }
    destruct (IH db1 db' b1 Gd1 Fc2) as (b' & G' & Gd' & C' & K'); try assumption.
    { intros x Hx. apply Hc. now right. }
    { intros f x Hx Ef Z. apply K1 in Z as [Z|(g & [= ->] & (r & _ & Z))].
      - apply (Fr f x); auto. now right.
      - subst g. cbn [fk_col] in Ef. apply (nc_columns _ _ _ _ Nc n) in Ef; [|apply Hc; now left|apply Hc; now right].
        apply N1. rewrite Ef. now apply in_map. }
    exists b'. split; [exact G'|]. split; [exact Gd'|]. split; [congruence|]. intros x. rewrite K', K1. split.
    + intros [[Z|(f & Ef & Z)]|(d & f & Hd & Z)]; [now left|right; exists c, f; split; [now left|auto]|right; exists d, f; split; [now right|auto]].
    + intros [Z|(d & f & [<-|Hd] & Ef & Z)]; [now do 2 left|left; right; eauto|right; eauto].
Qed.
Lemma drops_op n cs : forall db db' b, good db -> table_named n -> (forall c, In c cs -> cat n = lower n /\ cat (c_name c) = lower (c_name c)) ->
  mget (cat n) db = Some b ->
  run db (rs (map (fun c => DropConstraint false n (n ++ "_" ++ c_name c ++ "_fkey")) cs)) = Some db' -> good db' /\ exists b', mget (cat n) db' = Some b'.
Proof.
  induction cs as [|c cs IH]; intros db db' b G Hn Pl Gb H; cbn [map] in H; [apply run_nil in H; subst; eauto|].
  apply run_cons in H as (db1 & H & H'). cbn [respell pexec0] in H. destruct (Pl c (or_introl eq_refl)) as [P1 P2].
  rewrite !lower_app, <- P1, <- P2 in H. set (f0 := {| fk_col := cat (c_name c); fk_table := ""; fk_ref := "" |}).
  change (cat n ++ lower "_" ++ cat (c_name c) ++ lower "_fkey")%string with (usual_name (cat n) (PRef f0)) in H.
  destruct (drop_step kw old new db0 Nc n (PRef f0) false db db1 b G Hn Gb H) as (b1 & G1 & Gd1 & _).
  apply (IH db1 db' b1); try assumption. intros x Hx. apply Pl. now right.
Qed.
Lemma droptable_op n db db' : good db -> table_named n -> run db (rs (pg_op_ast show (RemoveTable n))) = Some db' -> good db' /\ mget (cat n) db' = None.
Proof.
  intros G Hn H. cbn [pg_op_ast map] in H. apply run_cons in H as (db1 & H & H'). apply run_nil in H'. subst db'. cbn [respell pexec0] in H. unfold pdrop in H.
  change (spelled kw lower n) with (cat n) in H. destruct (mget (cat n) db); [|discriminate]. destruct (existsb _ _); [discriminate|]. injection H as <-. split; [now apply good_del|].
  rewrite mget_mdel. destruct (keqb_spec (cat n) (cat n)); [reflexivity|contradiction].
Qed.
End Ops.
