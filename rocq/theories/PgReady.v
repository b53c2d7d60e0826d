(** A PostgreSQL migration script runs to its end when nothing in the catalogue stands
    in its way. *)
From Verif Require Import Base SqlVal Sql Query QuerySpec Adb AdbSpec AdbProofs Literal LiteralSpec LiteralProofs
  Ddl DdlProofs DdlSpec SqliteDdl SqliteDdlProofs DdlFine PgDdl PgSem PgSpec PgDdlProofs PgLocal PgOps PgMain.

(** Whether a script runs depends on nothing else than whether its statements are allowed. *)
Lemma prun_or_refused pick allows xs : forall db db', prun pick (fun _ _ => true) db xs = Some db' ->
  prun pick allows db xs = Some db'
  \/ exists done x rest db1, xs = done ++ x :: rest /\ prun pick allows db done = Some db1 /\ allows db1 x = false.
Proof.
  induction xs as [|x xs IH]; intros db db' H; cbn in H; [now left|]. destruct (pexec0 pick db x) as [db1|] eqn:E; [|discriminate].
  destruct (allows db x) eqn:A.
  - destruct (IH db1 db' H) as [K|(done & y & rest & db2 & -> & K & N)].
    + left. cbn. unfold pexec. now rewrite A, E.
    + right. exists (x :: done), y, rest, db2. split; [reflexivity|]. split; [|exact N]. cbn. unfold pexec. now rewrite A, E.
  - right. exists [], x, xs, db. auto.
Qed.

Section Ready.
Variable pick : pdb -> string -> string.
Hypothesis Hp : picks pick.
Variable kw : string -> bool.
Variable show : f64 -> string.
Variable read : bool -> string -> f64.
Hypothesis Hshow : display_ok read show.
Variables old new : ADB.
Hypothesis Wo : wf_schema old.
Hypothesis Wn : wf_schema new.
Hypothesis Fo : pg_schema_fine old.
Hypothesis Fn : pg_schema_fine new.
Hypothesis Df : pg_defaults_fine old new.
Hypothesis Pc : pg_change old new.
Variable db0 : pdb.
Hypothesis S0 : msorted db0.
Hypothesis H0 : pg_has kw old db0.
Hypothesis Nc : names_clear kw old new db0.
Hypothesis Rd : pg_ready kw old new db0.
Notation cat := (cat kw).
Notation named := (named old new).
Notation table_named := (table_named old new).
Notation good := (good kw old new db0).
Notation tab_ok := (tab_ok kw old new).
Notation steady := (steady kw old new).
Notation elsewhere := (elsewhere kw old new).
Notation marked := (marked kw).
Notation rs := (map (respell kw lower)).
Notation run := (prun pick (fun _ _ => true)).
Notation ast := (pg_op_ast show).

Let yes : pdb -> ddl -> bool := fun _ _ => true.
Let own_col := PgOps.own_col yes kw db0.
Let own_nodup := PgOps.own_nodup yes kw db0.
Let declared := PgOps.declared yes kw db0.

Lemma run1 db x r db1 db' : pexec0 pick db x = Some db1 -> run db1 r = Some db' -> run db (x :: r) = Some db'.
Proof. intros H K. cbn. now rewrite H. Qed.
Lemma run_join db xs ys db1 db' : run db (rs xs) = Some db1 -> run db1 (rs ys) = Some db' -> run db (rs (xs ++ ys)) = Some db'.
Proof. intros H K. rewrite map_app, prun_app. now rewrite H. Qed.

(** * Statements *)

Lemma add_cons_ok db T x b : mget T db = Some b -> pcol_at b (cons_col x) <> None ->
  match x with
  | PKey _ => forall y, has_cons b y -> is_primary y = false
  | PUnique _ => True
  | PRef f => keyed db (fk_table f) (fk_ref f)
  end -> exists db', add_cons pick db T x = Some db'.
Proof.
  intros G C X. unfold add_cons. rewrite G. destruct (pcol_at b (cons_col x)) as [k0|]; [|congruence]. cbn [is_some andb].
  match goal with |- context [if ?c then _ else _] => assert (Ec : c = true) end; [|rewrite Ec; eauto].
  destruct x as [c|c|f]; [|reflexivity|].
  - apply negb_true_iff. destruct (some_cons is_primary b) eqn:E; [|reflexivity]. apply some_cons_iff in E as (y & Hy & E). rewrite (X y Hy) in E. discriminate.
  - destruct X as (p & Gp & (k & Hk & Ek) & K). rewrite Gp. apply andb_true_iff. split.
    + destruct (pcol_at p (fk_ref f)) eqn:E; [reflexivity|]. apply pcol_at_None in E. exfalso. apply E. rewrite <- Ek. now apply in_map.
    + apply some_cons_iff. destruct K as [K|K]; eexists; (split; [exact K|]); cbn; apply String.eqb_refl.
Qed.
Lemma add_all_ok T xs : forall db b, mget T db = Some b ->
  (forall x, In x xs -> pcol_at b (cons_col x) <> None /\ match x with PRef _ => False | _ => True end) -> NoDup xs ->
  (forall x y, In x xs -> In y xs -> is_primary x = true -> is_primary y = true -> x = y) ->
  (forall x y, In x xs -> is_primary x = true -> has_cons b y -> is_primary y = false) ->
  exists db', add_all pick db T xs = Some db'.
Proof.
  induction xs as [|x xs IH]; intros db b G C ND U P; cbn [add_all]; [eauto|]. inversion ND as [|? ? Nx ND']; subst.
  destruct (C x (or_introl eq_refl)) as [Cx Rx].
  destruct (add_cons_ok db T x b G Cx) as [db1 E].
  { destruct x as [c|c|f]; [|exact I|contradiction]. intros y Hy. apply (P (PKey c)); auto. now left. }
  rewrite E. pose proof E as E0. unfold add_cons in E. rewrite G in E. destruct (_ && _); [|discriminate]. injection E as <-.
  eapply IH; [apply mget_mput_eq| | | |]; auto.
  - intros y Hy. destruct (C y (or_intror Hy)) as [Cy Ry]. split; [|exact Ry]. destruct x as [c|c|f]; [|exact Cy..].
    match goal with |- pcol_at ?tb _ <> None => change (pcol_at tb (cons_col y)) with (pcol_at (set_col b c (set_notnull true)) (cons_col y)) end.
    rewrite pcol_at_set by reflexivity. destruct (String.eqb_spec (cons_col y) c) as [E|_]; [|exact Cy]. rewrite <- E. destruct (pcol_at b (cons_col y)); [discriminate|congruence].
  - intros y z Hy Hz. apply U; now right.
  - intros y z Hy Py Hz.
    assert (Hz' : has_cons b z \/ z = x).
    { unfold has_cons in Hz |- *. cbn [with_cons p_cons] in Hz. rewrite map_app, in_app_iff in Hz. cbn [map In snd] in Hz.
      replace (p_cons match x with PKey c => set_col b c (set_notnull true) | _ => b end) with (p_cons b) in Hz by (now destruct x). intuition. }
    destruct Hz' as [Hz'| ->]; [apply (P y z); auto; now right|]. destruct (is_primary x) eqn:Px; [|reflexivity]. exfalso. apply Nx.
    rewrite (U x y (or_introl eq_refl) (or_intror Hy) Px Py). exact Hy.
Qed.
Lemma fkey_runs n c db b : pg_column_fine c -> mget (cat n) db = Some b -> pcol_at b (cat (c_name c)) <> None ->
  (forall r, c_ref c = Some (RefLiteral r) -> targets kw r (keyed db)) -> exists db', run db (rs (pg_fk_ast n c)) = Some db'.
Proof.
  intros (_ & _ & _ & _ & Fr) G C T. unfold pg_fk_ast, fk_of. destruct (c_ref c) as [[r|]|]; [|contradiction|cbn; eauto].
  destruct (add_cons_ok db (cat n) (PRef {| fk_col := cat (c_name c); fk_table := cat (rl_table r); fk_ref := cat (rl_column r) |}) b G C (T r eq_refl)) as [db' E].
  exists db'. cbn [map respell]. eapply run1; [exact E|reflexivity].
Qed.
Lemma lit_hex v h : lit_of show v = LitHex h -> exists b, v = VBlob b.
Proof.
  assert (N : forall s, num_lit s <> LitHex h) by (intros s; unfold num_lit; repeat match goal with |- context [match ?x with _ => _ end] => destruct x end; discriminate).
  destruct v; cbn; try discriminate; try (intros E; now apply N in E). intros _. eauto.
Qed.
Lemma addcol_runs n c db b : good db -> named n (c_name c) -> pg_column_fine c -> default_fine c -> c_auto c = false -> (forall x, column_default c <> Ok (VBlob x)) ->
  mget (cat n) db = Some b -> pcol_at b (cat (c_name c)) = None -> (c_pk c = true -> forall y, has_cons b y -> is_primary y = false) ->
  (forall db1 r, (forall m, m <> cat n -> mget m db1 = mget m db) -> (exists b1, mget (cat n) db1 = Some b1 /\ (forall k, In k (p_cols b) -> In k (p_cols b1)) /\ forall x, has_cons b x -> has_cons b1 x) ->
     c_ref c = Some (RefLiteral r) -> targets kw r (keyed db1)) ->
  exists db', run db (rs (ast (AddColumn n c))) = Some db'.
Proof.
  intros G Hc Fc (v & Dv & _) Au Nb Gb Gk Pk Hr. pose proof (named_table _ _ _ _ Hc) as Hn. cbn [pg_op_ast]. rewrite Dv. cbn [map].
  set (cc := cat (c_name c)) in *. set (cd := respell_col kw lower (with_default (pg_coldef c) (lit_of show v))).
  pose proof (decl_serial c Fc) as Sc. rewrite Au in Sc.
  assert (Ok' : coldef_ok cd = true).
  { unfold coldef_ok, cd. cbn [respell_col with_default pg_coldef cd_name cd_type cd_cons]. rewrite Sc.
    assert (Dd : defaults (((if c_nullable c then [] else [KNotNull]) ++ (if c_pk c then [KPrimary false] else []) ++ (if c_unique c then [KUnique] else [])) ++ [KDefault (lit_of show v)]) = [lit_of show v])
      by (destruct (c_nullable c), (c_pk c), (c_unique c); reflexivity).
    rewrite Dd. cbn [List.length Nat.add Nat.leb forallb andb].
    assert (Df' : default_fits (decl_words c) (lit_of show v) = true).
    { destruct (lit_of show v) eqn:El; try reflexivity. exfalso. apply lit_hex in El as [x ->]. now apply (Nb x). }
    rewrite Df'. cbn [andb]. destruct (c_nullable c), (c_pk c), (c_unique c); reflexivity. }
  set (b1 := with_cols b (p_cols b ++ [pcol_of cd])).
  assert (P1 : pcol_at b1 cc <> None).
  { rewrite pcol_at_None. intros N. apply N. unfold b1. cbn [with_cols p_cols]. rewrite map_app, in_app_iff. right. now left. }
  destruct (add_all_ok (cat n) (own_of kw c) (mput (cat n) b1 db) b1) as [db1 E1].
  { apply mget_mput_eq. }
  { intros x Hx. rewrite (own_col c x Hx). split; [exact P1|]. apply own_In in Hx. now destruct x. }
  { apply own_nodup. }
  { intros x y Hx Hy Px Py. apply own_In in Hx, Hy. destruct x, y; try discriminate. destruct Hx as [_ ->], Hy as [_ ->]. reflexivity. }
  { intros x y Hx Px Hy. apply own_In in Hx. destruct x as [z|z|z]; try discriminate. apply Pk; [tauto|exact Hy]. }
  assert (E : pexec0 pick db (respell kw lower (AddCol n (with_default (pg_coldef c) (lit_of show v)))) = Some db1).
  { cbn [respell pexec0]. fold cd. unfold padd_col. change (spelled kw lower n) with (cat n). rewrite Gb. change (cd_name cd) with cc. rewrite Gk. rewrite Ok'. cbn [is_some orb negb].
    fold b1. unfold cd at 1. now rewrite own_default. }
  assert (E2 : run db (rs [AddCol n (with_default (pg_coldef c) (lit_of show v))]) = Some db1) by (cbn [map]; eapply run1; [exact E|reflexivity]).
  (* what is there now *)
  pose proof (g_tab _ _ _ _ _ G n b Hn Gb) as O.
  assert (O1 : tab_ok n b1).
  { constructor.
    - unfold b1. cbn [with_cols p_cols]. rewrite map_app. apply NoDup_app_iff. split; [apply O|]. split; [repeat constructor; auto|].
      intros y Hy [<-|[]]. now apply pcol_at_None in Gk.
    - apply O.
    - apply O.
    - intros x Hx. pose proof (o_col _ _ _ _ _ O x Hx) as Z. rewrite pcol_at_None in *. intros N. apply Z. intros N'. apply N. unfold b1. cbn [with_cols p_cols]. rewrite map_app, in_app_iff. now left. }
  destruct (add_all_step pick Hp kw old new db0 Nc n (own_of kw c) (mput (cat n) b1 db) db1 b1) as (b2 & G2 & Gd2 & C2 & K2 & _); try assumption.
  { now apply good_put. }
  { apply mget_mput_eq. }
  { intros x Hx. split; [exists (c_name c); split; [exact Hc|now apply own_col]|]. apply own_In in Hx. now destruct x. }
  { apply own_nodup. }
  { intros x Hx _ Z. apply (o_col _ _ _ _ _ O x Z). rewrite (own_col c x Hx). exact Gk. }
  { intros y k Hy Hk Ek. apply own_In in Hy as [Hy ->]. unfold b1 in Hk. cbn [with_cols p_cols] in Hk. apply in_app_iff in Hk as [Hk|[<-|[]]].
    - exfalso. apply pcol_at_None in Gk. apply Gk. unfold cc. rewrite <- Ek. now apply in_map.
    - destruct (declared c (lit_of show v) Fc) as (_ & _ & Dn & _). fold cd in Dn. rewrite Dn. destruct Fc as (_ & _ & _ & N & _). rewrite N; auto. }
  destruct (fkey_runs n c db1 b2 Fc G2) as [db' E'].
  { unfold pcol_at. rewrite C2. exact P1. }
  { intros r Er. apply (Hr db1 r); [| |exact Er].
    - pose proof (pexec_frame pick (fun _ _ => true) db (respell kw lower (AddCol n (with_default (pg_coldef c) (lit_of show v)))) db1 (g_sorted _ _ _ _ _ G)) as T.
      apply T. exact E.
    - exists b2. split; [exact G2|]. split; [intros k Hk; rewrite C2; unfold b1; cbn [with_cols p_cols]; apply in_app_iff; now left|]. intros x Hx. apply K2. left. exact Hx. }
  exists db'. change (respell kw lower (AddCol n (with_default (pg_coldef c) (lit_of show v))) :: rs (pg_fk_ast n c)) with (rs ([AddCol n (with_default (pg_coldef c) (lit_of show v))] ++ pg_fk_ast n c)).
  eapply run_join; [exact E2|exact E'].
Qed.
Lemma dropcol_runs n m db b : mget (cat n) db = Some b -> pcol_at b (cat m) <> None ->
  (forall T tb f, In (T, tb) db -> has_cons tb (PRef f) -> fk_table f = cat n -> fk_ref f = cat m -> T = cat n /\ fk_col f = cat m) ->
  exists db', run db (rs (ast (RemoveColumn n m))) = Some db'.
Proof.
  intros G C R. cbn [pg_op_ast map respell]. unfold prun, pexec. cbn [pexec0]. unfold pdrop_col. change (spelled kw lower n) with (cat n). change (spelled kw lower m) with (cat m).
  rewrite G. destruct (pcol_at b (cat m)) as [k|]; [|congruence]. cbn [is_some andb].
  match goal with |- context [if negb ?c then _ else _] => assert (Ec : c = false) end; [|rewrite Ec; cbn; eauto].
  destruct (existsb _ db) eqn:E; [|reflexivity]. exfalso. apply existsb_exists in E as ([T tb] & Hin & E). apply existsb_exists in E as ([q x] & Hx & E). cbn [fst snd] in *.
  apply andb_true_iff in E as [E1 E2]. destruct x as [y|y|f]; try discriminate. cbn in E1. apply andb_true_iff in E1 as [E1 E3]. apply String.eqb_eq in E1, E3.
  destruct (R T tb f Hin) as [-> Ef]; auto; [apply in_map_iff; now exists (q, PRef f)|]. cbn [cons_col] in E2. rewrite Ef, !String.eqb_refl in E2. discriminate.
Qed.
Lemma alter_runs n db b k c ok f : mget (cat n) db = Some b -> pcol_at b c = Some k -> ok k = true -> exists db', alter_col db (cat n) c ok f = Some db'.
Proof. intros G K O. unfold alter_col. rewrite G, K, O. eauto. Qed.
Lemma referred_In db T c : referred db T c = true -> exists m b f, In (m, b) db /\ has_cons b (PRef f) /\ fk_table f = T /\ fk_ref f = c.
Proof.
  unfold referred. intros H. apply existsb_exists in H as ([m b] & Hin & H). apply some_cons_iff in H as (x & Hx & E). destruct x as [y|y|f]; try discriminate.
  cbn in E. apply andb_true_iff in E as [E1 E2]. apply String.eqb_eq in E1, E2. exists m, b, f. auto.
Qed.
Lemma drop_runs n x e db b : good db -> table_named n -> mget (cat n) db = Some b ->
  (e = true \/ exists y, has_cons b y /\ usual_name (cat n) y = usual_name (cat n) x) ->
  (forall y c, has_cons b y -> usual_name (cat n) y = usual_name (cat n) x -> (y = PKey c \/ y = PUnique c) -> referred db (cat n) c = true ->
     exists z, has_cons b z /\ is_key c z = true /\ usual_name (cat n) z <> usual_name (cat n) x) ->
  exists db', drop_cons db e (cat n) (usual_name (cat n) x) = Some db'.
Proof.
  intros G Hn Gb E L. pose proof (g_tab _ _ _ _ _ G n b Hn Gb) as O. unfold drop_cons. rewrite Gb.
  set (nm := usual_name (cat n) x) in *.
  assert (Us : forall q, In q (p_cons b) -> fst q = usual_name (cat n) (snd q) /\ has_cons b (snd q)).
  { intros [m y] Hq. split; [exact (o_usual _ _ _ _ _ O _ _ Hq)|]. now apply in_map. }
  destruct (find _ (p_cons b)) as [[m y]|] eqn:F.
  - apply find_some in F as [Hq F]. cbn in F. apply String.eqb_eq in F. destruct (Us _ Hq) as [U Hy]. cbn in U, Hy.
    assert (K : forall c, (y = PKey c \/ y = PUnique c) -> referred db (cat n) c && negb (existsb (fun p => is_key c (snd p)) (filter (fun p => negb (String.eqb (fst p) nm)) (p_cons b))) = false).
    { intros c Hc. destruct (referred db (cat n) c) eqn:Rf; [|reflexivity]. cbn [andb]. apply negb_false_iff. apply existsb_exists.
      destruct (L y c Hy) as (z & Hz & Kz & Nz); [congruence|exact Hc|exact Rf|]. apply in_map_iff in Hz as ([q z'] & Ez & Hz). cbn in Ez. subst z'.
      exists (q, z). split; [|exact Kz]. apply filter_In. split; [exact Hz|]. apply negb_true_iff, String.eqb_neq. cbn. destruct (Us _ Hz) as [Uz _]. cbn in Uz. now rewrite Uz. }
    destruct y as [c|c|f]; [rewrite (K c) by auto|rewrite (K c) by auto|]; eauto.
  - destruct E as [->|(y & Hy & E)]; [eauto|]. exfalso. unfold has_cons in Hy. apply in_map_iff in Hy as ([q y'] & Ey & Hq). cbn in Ey. subst y'.
    pose proof (find_none _ _ F _ Hq) as Z. destruct (Us _ Hq) as [U _]. cbn in Z, U. rewrite U, E, String.eqb_refl in Z. discriminate.
Qed.
(** * References and the keys they need *)

Definition fresh (T : string) : Prop := forall n, has_table old n -> cat n <> T.
(** Constraints that are there all the time. *)
Definition must (T : string) (x : pcons) : Prop :=
  match x with
  | PKey C => (marked old T C c_pk \/ fresh T) /\ marked new T C c_pk
  | PUnique C => (marked old T C c_unique \/ fresh T) /\ marked new T C c_unique
  | PRef _ => False
  end.
Definition fine_ref (f : fkdef) : Prop := steady (fk_table f) (fk_ref f) \/ elsewhere (fk_table f).
Definition fine_refs (db : pdb) : Prop := forall m b f, mget m db = Some b -> has_cons b (PRef f) -> fine_ref f.
Record calm (db : pdb) : Prop := {
  cm_refs : fine_refs db;
  cm_keys : forall T x, must T x -> exists b, mget T db = Some b /\ has_cons b x }.

Lemma steady_must T C : steady T C -> must T (PKey C) \/ must T (PUnique C).
Proof. unfold PgSpec.steady, must, fresh. tauto. Qed.
Lemma must_table T x : must T x -> exists n, has_table new n /\ cat n = T.
Proof.
  assert (A : forall C mk, marked new T C mk -> exists n, has_table new n /\ cat n = T).
  { intros C mk (n & t & c & H & _ & E & _). exists n. split; [now exists t|exact E]. }
  destruct x; cbn; [intros [_ H]; eauto..|intros []].
Qed.
Lemma has_keyed n db b x : good db -> table_named n -> mget (cat n) db = Some b -> has_cons b x -> match x with PRef _ => False | _ => True end -> keyed db (cat n) (cons_col x).
Proof.
  intros G Hn Gb Hx X. exists b. split; [exact Gb|]. split.
  - pose proof (o_col _ _ _ _ _ (g_tab _ _ _ _ _ G n b Hn Gb) x Hx) as C. destruct (pcol_at b (cons_col x)) as [k|] eqn:E; [|congruence]. apply pcol_at_In in E. eauto.
  - destruct x; [now left|now right|contradiction].
Qed.
Lemma must_keyed db T x : good db -> calm db -> must T x -> keyed db T (cons_col x).
Proof.
  intros G K M. destruct (must_table T x M) as (n & Hn & <-). destruct (cm_keys _ K _ x M) as (b & Gb & Hx). apply (has_keyed n db b); auto; [now right|]. now destruct x.
Qed.
Lemma steady_keyed db T C : good db -> calm db -> steady T C -> keyed db T C.
Proof. intros G K S. destruct (steady_must _ _ S) as [M|M]; apply (must_keyed db _ _ G K M). Qed.
Lemma elsewhere_keyed db T C : good db -> elsewhere T -> keyed db0 T C -> keyed db T C.
Proof. intros G E (b & Gb & K). exists b. split; [|exact K]. now rewrite (g_other _ _ _ _ _ G T E). Qed.
Lemma keyed_mono T0 db db1 b b1 T C : (forall m, m <> T0 -> mget m db1 = mget m db) -> mget T0 db = Some b -> mget T0 db1 = Some b1 ->
  (forall k, In k (p_cols b) -> In k (p_cols b1)) -> (forall x, has_cons b x -> match x with PRef _ => True | _ => has_cons b1 x end) -> keyed db T C -> keyed db1 T C.
Proof.
  intros Fr Gb G1 Cm Km (p & Gp & (k & Hk & Ek) & X). destruct (string_dec T T0) as [->|N].
  - assert (p = b) by congruence. subst p. exists b1. split; [exact G1|]. split; [exists k; auto|]. destruct X as [X|X]; [left|right]; apply (Km _ X).
  - exists p. split; [now rewrite Fr|]. eauto.
Qed.
Lemma new_ref_keyed n u c r db : good db -> calm db -> In (n, u) (a_tables new) -> has_table old n -> In c (t_cols u) -> c_ref c = Some (RefLiteral r) -> targets kw r (keyed db).
Proof.
  intros G K Hu Ho Hc Er. destruct (pr_new_refs _ _ _ _ Rd n u c r Hu Ho Hc Er) as [S|[E X]]; [now apply steady_keyed|now apply elsewhere_keyed].
Qed.
Lemma new_ref_fine n u c f : In (n, u) (a_tables new) -> has_table old n -> In c (t_cols u) -> pg_refers kw c f -> fine_ref f.
Proof. intros Hu Ho Hc (r & Er & ->). destruct (pr_new_refs _ _ _ _ Rd n u c r Hu Ho Hc Er) as [S|[E X]]; [now left|now right]. Qed.
Lemma calm_step n db db' b b' : calm db -> touches (cat n) db db' -> mget (cat n) db = Some b -> mget (cat n) db' = Some b' ->
  (forall f, has_cons b' (PRef f) -> has_cons b (PRef f) \/ fine_ref f) -> (forall x, must (cat n) x -> has_cons b x -> has_cons b' x) -> calm db'.
Proof.
  intros [R K] [_ T] Gb Gb' Hr Hk. split.
  - intros m d f Gd Hf. destruct (string_dec m (cat n)) as [->|N]; [|rewrite T in Gd by exact N; now apply (R m d)].
    assert (d = b') by congruence. subst d. destruct (Hr f Hf) as [Z|Z]; [now apply (R (cat n) b)|exact Z].
  - intros T0 x M. destruct (K T0 x M) as (d & Gd & Hx). destruct (string_dec T0 (cat n)) as [->|N].
    + assert (d = b) by congruence. subst d. exists b'. auto.
    + exists d. split; [now rewrite T|exact Hx].
Qed.
Lemma op_frame op db db' : msorted db -> run db (rs (ast op)) = Some db' -> touches (cat (op_table op)) db db'.
Proof. intros S H. apply (prun_frame pick (fun _ _ => true) _ (rs (ast op))); [apply op_about|exact S|exact H]. Qed.

(** * A table that is kept *)

Section KeptTable.
Variables (n : string) (t u : ATable).
Hypothesis Ht : In (n, t) (a_tables old).
Hypothesis Hu : In (n, u) (a_tables new).
Let Ho : has_table old n.
Proof. now exists t. Qed.
Let Hnn : table_named n.
Proof. now left. Qed.
Let NDt : NoDup (map c_name (t_cols t)).
Proof. apply (proj2 Wo n t Ht). Qed.
Let NDu : NoDup (map c_name (t_cols u)).
Proof. apply (proj2 Wn n u Hu). Qed.
Let named_t c : In c (t_cols t) -> named n (c_name c).
Proof. intros H. exists t. split; [now left|]. now exists c. Qed.
Let named_u c : In c (t_cols u) -> named n (c_name c).
Proof. intros H. exists u. split; [now right|]. now exists c. Qed.
Let fine_t c : In c (t_cols t) -> pg_column_fine c.
Proof. intros H. destruct (Fo n t Ht) as (_ & _ & F). rewrite Forall_forall in F. now apply F. Qed.
Let fine_u c : In c (t_cols u) -> pg_column_fine c.
Proof. intros H. destruct (Fn n u Hu) as (_ & _ & F). rewrite Forall_forall in F. now apply F. Qed.
Let one_t c c' : In c (t_cols t) -> In c' (t_cols t) -> c_name c = c_name c' -> c = c'.
Proof. intros A B E. pose proof (In_col_by_name _ _ NDt A) as Y1. pose proof (In_col_by_name _ _ NDt B) as Y2. rewrite E in Y1. congruence. Qed.
Let one_u c c' : In c (t_cols u) -> In c' (t_cols u) -> c_name c = c_name c' -> c = c'.
Proof. intros A B E. pose proof (In_col_by_name _ _ NDu A) as Y1. pose proof (In_col_by_name _ _ NDu B) as Y2. rewrite E in Y1. congruence. Qed.
Let same_cat c c' : In c (t_cols t) \/ In c (t_cols u) -> In c' (t_cols t) \/ In c' (t_cols u) -> cat (c_name c) = cat (c_name c') -> c_name c = c_name c'.
Proof. intros A B. apply (nc_columns _ _ _ _ Nc n); [destruct A; auto|destruct B; auto]. Qed.

Lemma marked_old C mk : marked old (cat n) C mk -> exists o, In o (t_cols t) /\ cat (c_name o) = C /\ mk o = true.
Proof.
  intros (m & s & c & Hm & Hc & En & Ec & M). apply (nc_tables _ _ _ _ Nc) in En; [|left; now exists s|exact Hnn]. subst m.
  apply (In_mget _ _ _ (proj1 Wo)) in Hm. pose proof (In_mget _ _ _ (proj1 Wo) Ht) as E. assert (s = t) by congruence. subst s. eauto.
Qed.
Lemma marked_new C mk : marked new (cat n) C mk -> exists o, In o (t_cols u) /\ cat (c_name o) = C /\ mk o = true.
Proof.
  intros (m & s & c & Hm & Hc & En & Ec & M). apply (nc_tables _ _ _ _ Nc) in En; [|right; now exists s|exact Hnn]. subst m.
  apply (In_mget _ _ _ (proj1 Wn)) in Hm. pose proof (In_mget _ _ _ (proj1 Wn) Hu) as E. assert (s = u) by congruence. subst s. eauto.
Qed.
Lemma must_cols x : must (cat n) x -> exists o c, In o (t_cols t) /\ In c (t_cols u) /\ c_name o = c_name c /\ cons_col x = cat (c_name o)
  /\ match x with PKey _ => c_pk o = true /\ c_pk c = true | PUnique _ => c_unique o = true /\ c_unique c = true | PRef _ => False end.
Proof.
  assert (X : forall C mk, (marked old (cat n) C mk \/ fresh (cat n)) /\ marked new (cat n) C mk ->
    exists o c, In o (t_cols t) /\ In c (t_cols u) /\ c_name o = c_name c /\ C = cat (c_name o) /\ mk o = true /\ mk c = true).
  { intros C mk [[A|A] B]; [|exfalso; now apply (A n Ho)]. apply marked_old in A as (o & Io & Eo & Mo). apply marked_new in B as (c & Ic & Ec & Mc).
    exists o, c. split; [exact Io|]. split; [exact Ic|]. split; [apply same_cat; auto; congruence|auto]. }
  destruct x as [C|C|f]; cbn [must cons_col]; [intros M; apply X in M as (o & c & H); exists o, c; tauto..|intros []].
Qed.

Lemma adds_runs la : forall db b, good db -> calm db -> (forall c, In c la -> In c (t_cols u) /\ ~ has_column t (c_name c)) ->
  NoDup (map c_name la) -> mget (cat n) db = Some b -> (forall c, In c la -> pcol_at b (cat (c_name c)) = None) ->
  (forall c y, In c la -> c_pk c = true -> has_cons b y -> is_primary y = false) ->
  exists db', run db (rs (flat_map ast (map (AddColumn n) la))) = Some db' /\ calm db'.
Proof.
  induction la as [|c la IH]; intros db b G K Hla ND Gb Ab Pk; cbn [map flat_map]; [exists db; auto|].
  inversion ND as [|? ? N1 N2]; subst. destruct (Hla c (or_introl eq_refl)) as [Hc Nh].
  assert (Ad : added_column old new n c) by (exists t, u; auto). pose proof (proj1 Df n c Ad) as Dc. destruct (pr_added _ _ _ _ Rd n c Ad) as [Au Nb].
  destruct (addcol_runs n c db b) as [db1 E1]; auto.
  { apply Ab. now left. }
  { intros Pc' y. apply (Pk c y); auto. now left. }
  { intros db1 r Fr (b1 & G1 & Cm & Km) Er. apply (keyed_mono (cat n) db db1 b b1); auto; [|now apply (new_ref_keyed n u c r)]. intros x Hx. destruct x; auto. }
  destruct (add_op pick (fun _ _ => true) Hp kw show old new db0 Nc n c db db1 b G (named_u c Hc) (fine_u c Hc) Dc Gb E1) as (b1 & G1 & Gd1 & _ & _ & P1 & K1 & _).
  assert (C1 : calm db1).
  { apply (calm_step n db db1 b b1); auto.
    - apply (op_frame (AddColumn n c)); [apply G|exact E1].
    - intros f Hf. apply K1 in Hf as [Hf|Hf]; [now left|right]. now apply (new_ref_fine n u c f).
    - intros x _ Hx. apply K1. now left. }
  destruct (IH db1 b1 Gd1 C1) as (db' & E' & C'); auto.
  { intros d Hd. apply Hla. now right. }
  { intros d Hd. rewrite P1; [apply Ab; now right|]. intros E. apply same_cat in E; [|right; apply Hla; now right|now right]. apply N1. rewrite <- E. now apply in_map. }
  { intros d y Hd Pd Hy. apply K1 in Hy as [Hy|Hy]; [apply (Pk d y); auto; now right|]. destruct y as [z|z|z]; try reflexivity. exfalso. destruct Hy as [Pc' _].
    assert (d = c); [|subst; apply N1; now apply in_map]. apply (pc_one _ _ Pc n u Hu); auto. apply Hla. now right. }
  exists db'. split; [|exact C']. eapply run_join; [exact E1|exact E'].
Qed.
Lemma removes_runs lr : forall db b, good db -> calm db -> (forall m, In m lr -> has_column t m /\ ~ has_column u m) -> NoDup lr ->
  mget (cat n) db = Some b -> (forall m, In m lr -> pcol_at b (cat m) <> None) ->
  exists db', run db (rs (flat_map ast (map (RemoveColumn n) lr))) = Some db' /\ calm db'.
Proof.
  induction lr as [|m lr IH]; intros db b G K Hlr ND Gb Pr; cbn [map flat_map]; [exists db; auto|].
  inversion ND as [|? ? N1 N2]; subst. destruct (Hlr m (or_introl eq_refl)) as [(o & Hom & <-) Nu].
  assert (Ns : forall x, must (cat n) x -> cons_col x <> cat (c_name o)).
  { intros x M E. destruct (must_cols x M) as (o' & c' & A & B & E1 & E2 & _). rewrite E2 in E. apply same_cat in E; auto. apply Nu. exists c'. split; [exact B|congruence]. }
  destruct (dropcol_runs n (c_name o) db b Gb (Pr _ (or_introl eq_refl))) as [db1 E1].
  { intros T tb f Hin Hf E1 E2. apply In_mget in Hin; [|apply G]. exfalso. destruct (cm_refs _ K T tb f Hin Hf) as [S|E]; [|now apply (E n)].
    rewrite E1, E2 in S. apply steady_must in S as [M|M]; now apply (Ns _ M). }
  destruct (remove_op pick (fun _ _ => true) kw show old new db0 Nc n (c_name o) db db1 b G (named_t o Hom) Gb E1) as (b1 & G1 & Gd1 & _ & P1 & K1).
  assert (C1 : calm db1).
  { apply (calm_step n db db1 b b1); auto.
    - apply (op_frame (RemoveColumn n (c_name o))); [apply G|exact E1].
    - intros f Hf. apply K1 in Hf as [Hf _]. now left.
    - intros x M Hx. apply K1. split; [exact Hx|]. now apply Ns. }
  destruct (IH db1 b1 Gd1 C1) as (db' & E' & C'); auto.
  { intros d Hd. apply Hlr. now right. }
  { intros d Hd. rewrite P1; [apply Pr; now right|]. intros E. destruct (Hlr d (or_intror Hd)) as [(o' & Ho' & <-) _]. apply same_cat in E; auto. apply N1. now rewrite <- E. }
  exists db'. split; [|exact C']. eapply run_join; [exact E1|exact E'].
Qed.
(** The primary key is that of the old table or of the new one. *)
Definition keys_known (b : ptab) : Prop := forall y, has_cons b (PKey y) -> exists c, (In c (t_cols t) \/ In c (t_cols u)) /\ c_pk c = true /\ y = cat (c_name c).

Lemma referred_must db c : good db -> calm db -> referred db (cat n) c = true -> must (cat n) (PKey c) \/ must (cat n) (PUnique c).
Proof.
  intros G K R. apply referred_In in R as (m & tb & f & Hin & Hf & E1 & E2). apply In_mget in Hin; [|apply G]. destruct (cm_refs _ K m tb f Hin Hf) as [S|E]; [|exfalso; now apply (E n)].
  rewrite E1, E2 in S. now apply steady_must.
Qed.
Lemma piece_calm xs db db' b b' : good db -> calm db -> Forall (fun x => about x = cat n) (rs xs) -> run db (rs xs) = Some db' -> mget (cat n) db = Some b -> mget (cat n) db' = Some b' ->
  (forall f, has_cons b' (PRef f) -> has_cons b (PRef f) \/ fine_ref f) -> (forall x, must (cat n) x -> has_cons b x -> has_cons b' x) -> calm db'.
Proof.
  intros G K A E Gb Gb' R M. apply (calm_step n db db' b b'); auto. apply (prun_frame pick (fun _ _ => true) (cat n) (rs xs)); [exact A|apply G|exact E].
Qed.

Lemma change_runs o c db b k : good db -> calm db -> In o (t_cols t) -> In c (t_cols u) -> c_name o = c_name c -> ~ same_column o c ->
  mget (cat n) db = Some b -> pcol_at b (cat (c_name o)) = Some k -> pg_declares kw o k -> keys_known b ->
  (forall x, cons_col x = cat (c_name o) -> is_primary x = false -> has_cons b x <-> wants kw o x) ->
  exists db', run db (rs (ast (ChangeColumn n o c))) = Some db' /\ calm db'.
Proof.
  intros G K Io Ic En Ns Gb Gk (Dn & Dt & Dl & Da) Kk Kw. pose proof (fine_t o Io) as Fco. pose proof (fine_u c Ic) as Fcc. pose proof (named_t o Io) as Hc.
  assert (Ch : changed_column old new n o c) by (exists t, u; auto 10).
  destruct (nc_plain _ _ _ _ Nc n (c_name o)) as [Pl Pcn]; [exists t, o; eauto 6|]. destruct (pr_changed _ _ _ _ Rd n o c Ch) as (Rt & Rn & Rb).
  pose proof (op_about kw show (ChangeColumn n o c)) as Ab. cbn [op_table pg_op_ast] in Ab |- *. unfold pg_change_ast in Ab |- *. rewrite !map_app, !Forall_app in Ab. destruct Ab as (A1 & A2 & A3 & A4 & A5 & A6).
  set (cc := cat (c_name o)) in *.
  (* type *)
  assert (R1 : exists db1, run db (rs (if same_type_b o c then [] else [SetType n (c_name o) (decl_words c)])) = Some db1).
  { destruct (same_type_b o c) eqn:Es; [cbn; eauto|].
    assert (Au : c_auto c = false).
    { destruct (c_auto c) eqn:Au; [|reflexivity]. exfalso. specialize (Rt eq_refl). unfold same_type in Rt. unfold same_type_b in Es.
      destruct (typeid_denotes o) as [(i & Ei & Di)|(z & Di)]; [|destruct Fco as (_ & X & _); rewrite Di in X; contradiction].
      destruct (typeid_denotes c) as [(j & Ej & Dj)|(z & Dj)]; [|destruct Fcc as (_ & X & _); rewrite Dj in X; contradiction].
      rewrite Ei, Ej in Es. assert (i = j) by congruence. subst j. destruct (typeid_eqb_spec i i); [discriminate|contradiction]. }
    destruct (alter_runs n db b k cc (fun _ => negb (is_some (serial (decl_words c)))) (set_type (map upper (decl_words c))) Gb Gk) as [db1 E]; [now rewrite (decl_serial c Fcc), Au|].
    exists db1. cbn [map respell]. eapply run1; [exact E|reflexivity]. }
  destruct R1 as [db1 E1]. destruct (change_type pick (fun _ _ => true) kw old new db0 Nc n o c db db1 b k G Hnn Fco Fcc Gb Gk Dt E1) as (b1 & G1 & Gd1 & C1 & S1 & P1).
  assert (Kc1 : forall x, has_cons b1 x <-> has_cons b x) by (intros x; unfold has_cons; now rewrite C1).
  assert (M1 : calm db1) by (apply (piece_calm _ db db1 b b1 G K A1 E1 Gb G1); [intros f Hf; left; now apply Kc1|intros x _ Hx; now apply Kc1]).
  fold cc in S1.
  (* null *)
  assert (R2 : exists db2, run db1 (rs (if Bool.eqb (c_nullable o) (c_nullable c) then [] else [SetNotNull n (c_name o) (negb (c_nullable c))])) = Some db2).
  { destruct (Bool.eqb (c_nullable o) (c_nullable c)); [cbn; eauto|].
    destruct (alter_runs n db1 b1 _ cc (fun _ => negb (c_nullable c) || negb (in_primary db1 (cat n) cc)) (set_notnull (negb (c_nullable c))) G1 S1) as [db2 E].
    { destruct (c_nullable c) eqn:Nl; [|reflexivity]. cbn [negb orb]. apply negb_true_iff. unfold in_primary. rewrite G1.
      destruct (some_cons _ b1) eqn:Es; [|reflexivity]. exfalso. apply some_cons_iff in Es as (x & Hx & Ex). destruct x as [y|y|y]; try discriminate. apply String.eqb_eq in Ex. subst y.
      apply Kc1 in Hx. destruct (Kk _ Hx) as (d & Hd & Pd & Ed). unfold cc in Ed. destruct Hd as [Hd|Hd].
      - apply same_cat in Ed; auto. assert (o = d) by auto. subst d. specialize (Rn Pd). discriminate.
      - apply same_cat in Ed; auto. assert (c = d) by (apply one_u; congruence). subst d. destruct Fcc as (_ & _ & _ & Z & _). rewrite Z in Nl by auto. discriminate. }
    exists db2. cbn [map respell]. eapply run1; [exact E|reflexivity]. }
  destruct R2 as [db2 E2]. destruct (change_null pick (fun _ _ => true) kw old new db0 Nc n o c db1 db2 b1 _ Gd1 Hnn G1 S1 Dl E2) as (b2 & G2 & Gd2 & C2 & S2 & P2).
  assert (Kc2 : forall x, has_cons b2 x <-> has_cons b x) by (intros x; rewrite <- Kc1; unfold has_cons; now rewrite C2).
  assert (M2 : calm db2) by (apply (piece_calm _ db1 db2 b1 b2 Gd1 M1 A2 E2 G1 G2); [intros f Hf; left; apply Kc1; now apply Kc2|intros x _ Hx; apply Kc2; now apply Kc1]).
  fold cc in S2.
  (* primary key *)
  assert (Np : c_pk c = true -> c_nullable c = false) by (intros Z; apply Fcc; auto).
  assert (R3 : exists db3, run db2 (rs (if Bool.eqb (c_pk o) (c_pk c) then [] else if c_pk c then [DropConstraint true n (n ++ "_pkey"); AddPrimaryKey n (c_name c)] else [])) = Some db3).
  { destruct (c_pk o) eqn:Po, (c_pk c) eqn:Pcc; cbn [Bool.eqb]; try (cbn; eauto; fail). cbn [map respell].
    change (spelled kw lower n) with (cat n). change (spelled kw lower (c_name c)) with (cat (c_name c)). rewrite <- En. fold cc.
    rewrite lower_app, <- Pl. change (lower "_pkey") with "_pkey"%string. change (cat n ++ "_pkey")%string with (usual_name (cat n) (PKey cc)).
    destruct (drop_runs n (PKey cc) true db2 b2 Gd2 Hnn G2 (or_introl eq_refl)) as [dbx Ex].
    { intros y z Hy Uy Yz Rf. apply usual_slot in Uy. destruct y as [y|y|y]; try contradiction. destruct Yz as [[= ->]|[=]].
      destruct (referred_must db2 z Gd2 M2 Rf) as [M|M].
      - exfalso. destruct (must_cols _ M) as (o' & c' & A & B & E' & Ez & Mo & Mc). assert (c' = c) by (now apply (pc_one _ _ Pc n u Hu)). subst c'.
        assert (o' = o) by (apply one_t; congruence). congruence.
      - destruct (cm_keys _ M2 _ _ M) as (bb & Gbb & Hbb). assert (bb = b2) by congruence. subst bb. exists (PUnique z). split; [exact Hbb|]. split; [apply String.eqb_refl|].
        intros U. apply usual_slot in U. exact U. }
    destruct (drop_step kw old new db0 Nc n (PKey cc) true db2 dbx b2 Gd2 Hnn G2 Ex) as (bx & Gx & Gdx & Cx & Kx).
    destruct (add_cons_ok dbx (cat n) (PKey cc) bx Gx) as [db3 E3].
    { cbn [cons_col]. unfold pcol_at in S2 |- *. rewrite Cx, S2. discriminate. }
    { intros y Hy. apply Kx in Hy as [_ Hy]. destruct y; try reflexivity. exfalso. apply Hy. reflexivity. }
    exists db3. eapply run1; [exact Ex|]. eapply run1; [exact E3|reflexivity]. }
  destruct R3 as [db3 E3]. destruct (change_key pick (fun _ _ => true) Hp kw old new db0 Nc n o c db2 db3 b2 _ Gd2 Hc En Pl G2 S2) as (b3 & G3 & Gd3 & C3 & K3); [intros Z; cbn; now rewrite (Np Z)|exact E3|].
  fold cc in K3.
  assert (Nop : forall x, promotes o c = true -> must (cat n) x -> is_primary x = false).
  { intros x Pr M. destruct (is_primary x) eqn:Px; [|reflexivity]. exfalso. destruct x as [z|z|z]; try discriminate. unfold promotes in Pr. apply andb_true_iff in Pr as [Pr1 Pr2]. apply negb_true_iff in Pr1.
    destruct (must_cols _ M) as (o' & c' & A & B & E' & Ez & Mo & Mc). assert (c' = c) by (now apply (pc_one _ _ Pc n u Hu)). subst c'. assert (o' = o) by (apply one_t; congruence). congruence. }
  assert (M3 : calm db3).
  { apply (piece_calm _ db2 db3 b2 b3 Gd2 M2 A3 E3 G2 G3).
    - intros f Hf. apply K3 in Hf. destruct (promotes o c); [destruct Hf as [[Hf _]|[=]]|]; now left.
    - intros x M Hx. apply K3. destruct (promotes o c) eqn:Pr; [|exact Hx]. left. split; [exact Hx|]. now apply Nop. }
  assert (K3n : forall x, is_primary x = false -> has_cons b3 x <-> has_cons b x).
  { intros x Px. rewrite K3. destruct (promotes o c); rewrite Kc2; [|reflexivity]. split; [intros [[Z _]| ->]; [exact Z|discriminate]|auto]. }
  assert (S3 : pcol_at b3 cc = pcol_at b2 cc) by (unfold pcol_at; now rewrite C3).
  assert (Ku : has_cons b3 (PUnique cc) <-> c_unique o = true).
  { rewrite K3n by reflexivity. rewrite Kw by reflexivity. cbn. fold cc. tauto. }
  (* unique *)
  assert (R4 : exists db4, run db3 (rs (if Bool.eqb (c_unique o) (c_unique c) then [] else if c_unique c then [AddUnique n (c_name c)] else [DropConstraint false n (n ++ "_" ++ c_name o ++ "_key")])) = Some db4).
  { destruct (c_unique o) eqn:Uo, (c_unique c) eqn:Uc; cbn [Bool.eqb]; try (cbn; eauto; fail); cbn [map respell].
    - change (spelled kw lower n) with (cat n). rewrite !lower_app, <- Pl, <- Pcn. fold cc.
      change (cat n ++ lower "_" ++ cc ++ lower "_key")%string with (usual_name (cat n) (PUnique cc)).
      destruct (drop_runs n (PUnique cc) false db3 b3 Gd3 Hnn G3) as [db4 E4].
      + right. exists (PUnique cc). split; [now apply Ku|reflexivity].
      + intros y z Hy Uy Yz Rf. apply usual_slot in Uy. destruct y as [y|y|y]; try contradiction. subst y. destruct Yz as [[=]|[= <-]].
        destruct (referred_must db3 cc Gd3 M3 Rf) as [M|M].
        * destruct (cm_keys _ M3 _ _ M) as (bb & Gbb & Hbb). assert (bb = b3) by congruence. subst bb. exists (PKey cc). split; [exact Hbb|]. split; [apply String.eqb_refl|].
          intros U. apply usual_slot in U. exact U.
        * exfalso. destruct (must_cols _ M) as (o' & c' & A & B & E' & Ez & Mo & Mc). cbn [cons_col] in Ez. unfold cc in Ez. apply same_cat in Ez; auto. assert (c' = c) by (apply one_u; congruence). congruence.
      + exists db4. eapply run1; [exact E4|reflexivity].
    - change (spelled kw lower n) with (cat n). change (spelled kw lower (c_name c)) with (cat (c_name c)). rewrite <- En. fold cc.
      destruct (add_cons_ok db3 (cat n) (PUnique cc) b3 G3) as [db4 E4]; [cbn [cons_col]; now rewrite S3, S2|exact I|]. exists db4. eapply run1; [exact E4|reflexivity]. }
  destruct R4 as [db4 E4]. destruct (change_unique pick (fun _ _ => true) Hp kw old new db0 Nc n o c db3 db4 b3 Gd3 Hc En Pl Pcn G3 Ku E4) as (b4 & G4 & Gd4 & C4 & K4).
  fold cc in K4.
  assert (M4 : calm db4).
  { apply (piece_calm _ db3 db4 b3 b4 Gd3 M3 A4 E4 G3 G4).
    - intros f Hf. apply K4 in Hf. now left.
    - intros x M Hx. apply K4. destruct x as [y|y|f]; try exact Hx. destruct (String.eqb_spec y cc) as [->|_]; [|exact Hx].
      destruct (must_cols _ M) as (o' & c' & A & B & E' & Ez & Mo & Mc). cbn [cons_col] in Ez. unfold cc in Ez. apply same_cat in Ez; auto. assert (c' = c) by (apply one_u; congruence). congruence. }
  assert (S4 : pcol_at b4 cc = Some (set_notnull (negb (c_nullable c)) (set_type (pg_words c) k))) by (unfold pcol_at; rewrite C4; fold (pcol_at b3 cc); now rewrite S3).
  (* default *)
  assert (R5 : exists db5, run db4 (rs (if opt_eqb sqlval_eqb (c_default o) (c_default c) then [] else [SetDefault n (c_name o) (option_map (lit_of show) (c_default c))])) = Some db5).
  { destruct (opt_eqb sqlval_eqb (c_default o) (c_default c)) eqn:Ed; [cbn; eauto|]. cbn [map respell].
    destruct (c_default c) as [v|] eqn:Dv; cbn [option_map].
    - destruct (alter_runs n db4 b4 _ cc (fun j => default_fits (p_type j) (lit_of show v)) (set_default (default_of (lit_of show v))) G4 S4) as [db5 E].
      { destruct (lit_of show v) eqn:El; try reflexivity. exfalso. apply lit_hex in El as [x ->]. specialize (Rb x eq_refl). apply opt_eqb_iff with (f := sqlval_eqb) in Rb; [congruence|apply sqlval_eqb_same]. }
      exists db5. eapply run1; [exact E|reflexivity].
    - destruct (alter_runs n db4 b4 _ cc (fun _ => true) (set_default None) G4 S4 eq_refl) as [db5 E]. exists db5. eapply run1; [exact E|reflexivity]. }
  destruct R5 as [db5 E5]. destruct (change_default pick (fun _ _ => true) kw show old new db0 Nc n o c db4 db5 b4 _ Gd4 Hnn G4 S4 E5) as (b5 & G5 & Gd5 & C5 & S5 & P5).
  assert (K5 : forall x, has_cons b5 x <-> has_cons b4 x) by (intros x; unfold has_cons; now rewrite C5).
  assert (M5 : calm db5) by (apply (piece_calm _ db4 db5 b4 b5 Gd4 M4 A5 E5 G4 G5); [intros f Hf; left; now apply K5|intros x _ Hx; now apply K5]).
  fold cc in S5.
  (* reference *)
  assert (Kr : forall f, fk_col f = cc -> has_cons b5 (PRef f) <-> pg_refers kw o f).
  { intros f Ef. rewrite K5, K4, K3n by reflexivity. rewrite Kw; [reflexivity|exact Ef|reflexivity]. }
  assert (R6 : exists db6, run db5 (rs (if opt_eqb aref_eqb (c_ref o) (c_ref c) then []
      else (match c_ref o with Some _ => [DropConstraint false n (n ++ "_" ++ c_name o ++ "_fkey")] | None => [] end) ++ pg_fk_ast n c)) = Some db6).
  { destruct (opt_eqb aref_eqb (c_ref o) (c_ref c)); [cbn; eauto|].
    assert (X : exists dbx bx, run db5 (rs (match c_ref o with Some _ => [DropConstraint false n (n ++ "_" ++ c_name o ++ "_fkey")] | None => [] end)) = Some dbx
      /\ mget (cat n) dbx = Some bx /\ (forall m, m <> cat n -> mget m dbx = mget m db5) /\ p_cols bx = p_cols b5 /\ (forall x, has_cons b5 x -> match x with PRef _ => True | _ => has_cons bx x end)).
    { destruct (c_ref o) as [r|] eqn:Ro; [|exists db5, b5; repeat split; auto; intros x Hx; now destruct x]. cbn [map respell].
      change (spelled kw lower n) with (cat n). rewrite !lower_app, <- Pl, <- Pcn. fold cc. set (f0 := {| fk_col := cc; fk_table := ""; fk_ref := "" |}).
      change (cat n ++ lower "_" ++ cc ++ lower "_fkey")%string with (usual_name (cat n) (PRef f0)).
      destruct (drop_runs n (PRef f0) false db5 b5 Gd5 Hnn G5) as [dbx Ex].
      - right. destruct r as [r|]; [|destruct Fco as (_ & _ & _ & _ & Z); rewrite Ro in Z; contradiction].
        set (f := {| fk_col := cc; fk_table := cat (rl_table r); fk_ref := cat (rl_column r) |}). exists (PRef f). split; [|reflexivity]. apply Kr; [reflexivity|]. exists r. auto.
      - intros y z _ Uy Yz. apply usual_slot in Uy. destruct y; try contradiction. destruct Yz as [[=]|[=]].
      - destruct (drop_step kw old new db0 Nc n (PRef f0) false db5 dbx b5 Gd5 Hnn G5 Ex) as (bx & Gx & Gdx & Cx & Kx). exists dbx, bx.
        assert (Er : run db5 [DropConstraint false (cat n) (usual_name (cat n) (PRef f0))] = Some dbx) by (eapply run1; [exact Ex|reflexivity]).
        split; [exact Er|]. split; [exact Gx|]. split; [|split; [exact Cx|]].
        + pose proof (prun_frame pick (fun _ _ => true) (cat n) [DropConstraint false (cat n) (usual_name (cat n) (PRef f0))] db5 dbx) as T. apply T; [repeat constructor|apply Gd5|exact Er].
        + intros x Hx. destruct x as [y|y|f]; [|  |exact I]; apply Kx; (split; [exact Hx|]); intros U; apply usual_slot in U; exact U. }
    destruct X as (dbx & bx & Ex & Gx & Fx & Cx & Kx).
    destruct (fkey_runs n c dbx bx Fcc Gx) as [db6 E6].
    - unfold pcol_at. rewrite Cx. fold (pcol_at b5 (cat (c_name c))). rewrite <- En. fold cc. now rewrite S5.
    - intros r Er. apply (keyed_mono (cat n) db5 dbx b5 bx); auto; [intros j Hj; now rewrite Cx|]. now apply (new_ref_keyed n u c r).
    - exists db6. eapply run_join; [exact Ex|exact E6]. }
  destruct R6 as [db6 E6]. destruct (change_ref pick (fun _ _ => true) Hp kw old new db0 Nc n o c db5 db6 b5 Gd5 Hc En Pl Pcn Fco Fcc G5 Kr E6) as (b6 & G6 & Gd6 & C6 & K6).
  fold cc in K6.
  assert (M6 : calm db6).
  { apply (piece_calm _ db5 db6 b5 b6 Gd5 M5 A6 E6 G5 G6).
    - intros f Hf. apply K6 in Hf. destruct (String.eqb (fk_col f) cc); [|now left]. right. now apply (new_ref_fine n u c f).
    - intros x M Hx. apply K6. destruct x as [y|y|f]; try exact Hx. destruct M. }
  exists db6. split; [|exact M6].
  eapply run_join; [exact E1|]. eapply run_join; [exact E2|]. eapply run_join; [exact E3|]. eapply run_join; [exact E4|]. eapply run_join; [exact E5|exact E6].
Qed.
Lemma changes_runs lc : forall db b, good db -> calm db -> (forall o c, In (o, c) lc -> In o (t_cols t) /\ In c (t_cols u) /\ c_name o = c_name c /\ ~ same_column o c) ->
  NoDup (map (fun p => c_name (fst p)) lc) -> mget (cat n) db = Some b -> keys_known b ->
  (forall p, In p lc -> exists k, pcol_at b (cat (c_name (fst p))) = Some k /\ pg_declares kw (fst p) k) ->
  (forall p x, In p lc -> cons_col x = cat (c_name (fst p)) -> is_primary x = false -> has_cons b x <-> wants kw (fst p) x) ->
  exists db', run db (rs (flat_map ast (map (fun p => ChangeColumn n (fst p) (snd p)) lc))) = Some db' /\ calm db'.
Proof.
  induction lc as [|[o c] lc IH]; intros db b G K Hlc ND Gb Kk Dk Kw; cbn [map flat_map fst snd]; [exists db; auto|].
  cbn [map fst] in ND. inversion ND as [|? ? N1 N2]; subst. destruct (Hlc o c (or_introl eq_refl)) as (Io & Ic & En & Ns).
  destruct (Dk (o, c) (or_introl eq_refl)) as (k & Gk & Dc). cbn [fst] in Gk, Dc.
  assert (Kc : forall x, cons_col x = cat (c_name o) -> is_primary x = false -> has_cons b x <-> wants kw o x) by (intros x Ex Px; apply (Kw (o, c) x); auto; now left).
  destruct (change_runs o c db b k G K Io Ic En Ns Gb Gk Dc Kk Kc) as (db1 & E1 & M1).
  assert (Ch : changed_column old new n o c) by (exists t, u; auto 10).
  destruct (nc_plain _ _ _ _ Nc n (c_name o)) as [Pl Pcn]; [exists t, o; eauto 6|].
  destruct (change_op pick (fun _ _ => true) Hp kw show old new db0 Nc n o c db db1 b k G (named_t o Io) En Pl Pcn (fine_t o Io) (fine_u c Ic) (pc_auto _ _ Pc n o c Ch) Gb Gk Dc Kc E1)
    as (b1 & k1 & G1 & Gd1 & Gk1 & Dk1 & Dd1 & P1 & K1 & K1' & Q1).
  assert (Ne : forall p, In p lc -> cat (c_name (fst p)) <> cat (c_name o)).
  { intros [o' c'] Hp' E. destruct (Hlc o' c' (or_intror Hp')) as (A & _). cbn [fst] in E. apply same_cat in E; auto. apply N1. rewrite <- E. apply (in_map (fun p => c_name (fst p)) _ _ Hp'). }
  destruct (IH db1 b1 Gd1 M1) as (db' & E' & M'); auto.
  { intros o' c' H'. apply Hlc. now right. }
  { intros y Hy. apply Q1 in Hy. destruct (promotes o c) eqn:Pr; [|now apply Kk]. exists c. split; [now right|]. unfold promotes in Pr. apply andb_true_iff in Pr as [_ Pr]. split; [exact Pr|]. now rewrite <- En. }
  { intros p Hp'. rewrite P1 by now apply Ne. apply Dk. now right. }
  { intros p x Hp' Ex Px. rewrite K1'; [apply Kw; auto; now right|exact Px|]. rewrite Ex. now apply Ne. }
  exists db'. split; [|exact M']. eapply run_join; [exact E1|exact E'].
Qed.

Lemma kept_runs db b : good db -> calm db -> mget (cat n) db = Some b -> pg_table_is kw t b -> exists db', run db (rs (flat_map ast (adds t u ++ removes t u ++ changes t u))) = Some db' /\ calm db'.
Proof.
  intros G K Gb (ND & T1 & T2 & T3). destruct (kept_lists old new Wo Wn n t u Ht Hu) as (la & lr & lc & Ea & Er & Ec & NDa & NDc & La & Lr & Lc).
  assert (NDr : NoDup lr).
  { apply (NoDup_map_inv (RemoveColumn n)). rewrite <- Er. unfold removes. apply NoDup_map_in; [apply NoDup_filter, sorted_NoDup, set_of_list_sorted|]. now intros x y _ _ [=]. }
  rewrite Ea, Er, Ec, !flat_map_app.
  assert (I1 : forall c, In c (t_cols t) -> exists k, pcol_at b (cat (c_name c)) = Some k /\ pg_declares kw c k).
  { intros c Hc. destruct (T1 c Hc) as (k & Hk & D). exists k. split; [|exact D]. rewrite <- (proj1 D). now apply In_pcol_at. }
  assert (I2 : forall y k, pcol_at b y = Some k -> exists c, In c (t_cols t) /\ y = cat (c_name c)).
  { intros y k Gy. apply pcol_at_In in Gy as [Hk <-]. destruct (T2 k Hk) as (c & Hc & D). exists c. split; [exact Hc|apply D]. }
  destruct (adds_runs la db b G K) as (db1 & E1 & M1); auto.
  { intros c Hc. now apply La. }
  { intros c Hc. apply La in Hc as [Hc Nh]. destruct (pcol_at b (cat (c_name c))) as [k|] eqn:E; [|reflexivity]. exfalso. apply I2 in E as (o & Io & E). apply same_cat in E; auto. apply Nh. exists o. auto. }
  { intros c y Hc Pk Hy. apply La in Hc as [Hc Nh]. destruct y as [y|y|y]; try reflexivity. exfalso. apply T3 in Hy as (o & Io & Po & _).
    assert (c_pk o = false); [|congruence]. apply (pr_added_key _ _ _ _ Rd n t c o); auto. exists t, u. auto. }
  destruct (adds_phase pick (fun _ _ => true) Hp kw show old new db0 Nc n la db db1 b G) as (b1 & G1 & Gd1 & D1 & P1 & K1 & Q1); try assumption.
  { intros c Hc. pose proof (proj1 (La c) Hc) as [A B]. split; [now apply named_u|]. split; [now apply fine_u|]. apply (proj1 Df n). exists t, u. auto 10. }
  destruct (removes_runs lr db1 b1 Gd1 M1) as (db2 & E2 & M2); auto.
  { intros m Hm. now apply Lr. }
  { intros m Hm. apply Lr in Hm as [(o & Io & <-) Nu]. rewrite P1; [destruct (I1 o Io) as (k & Z & _); now rewrite Z|]. intros c Hc E. apply La in Hc as [Hc Nh]. apply same_cat in E; auto. apply Nh. exists o. auto. }
  destruct (removes_phase pick (fun _ _ => true) kw show old new db0 Nc n lr db1 db2 b1 Gd1) as (b2 & G2 & Gd2 & P2 & N2 & K2); try assumption.
  { intros m Hm. apply Lr in Hm as [A _]. exists t. auto. }
  destruct (changes_runs lc db2 b2 Gd2 M2) as (db3 & E3 & M3); auto.
  { intros o c Hl. now apply Lc. }
  { intros y Hy. apply K2 in Hy as [Hy _]. apply K1 in Hy as [Hy|(c & Hc & W)].
    - apply T3 in Hy as (o & Io & Po & ->). exists o. auto.
    - apply La in Hc as [Hc _]. destruct W as [W ->]. exists c. auto. }
  { intros [o c] Hl. apply Lc in Hl as (A & B & E & Ns). cbn [fst]. rewrite P2, P1; [now apply I1| |].
    - intros d Hd Z. apply La in Hd as [Hd Nd]. apply same_cat in Z; auto. apply Nd. exists o. auto.
    - intros m Hm Z. apply Lr in Hm as [(d & Hd & <-) Nm]. apply same_cat in Z; auto. apply Nm. exists c. split; [exact B|congruence]. }
  { intros [o c] x Hl Ex Px. apply Lc in Hl as (A & B & E & Ns). cbn [fst] in *. rewrite K2, K1. split.
    - intros [[Z|(d & Hd & Z)] _].
      + apply T3 in Z as (d & Hd & Z). pose proof (wants_at _ _ _ Z) as Z'. assert (d = o); [|now subst]. apply one_t; auto. apply same_cat; auto. congruence.
      + exfalso. apply La in Hd as [Hd Nd]. apply wants_at in Z. apply Nd. exists o. split; [exact A|]. apply same_cat; auto. congruence.
    - intros Z. split; [left; apply T3; eauto|]. intros m Hm Zm. apply Lr in Hm as [(d & Hd & <-) Nm]. rewrite Ex in Zm. apply same_cat in Zm; auto.
      apply Nm. exists c. split; [exact B|congruence]. }
  exists db3. split; [|exact M3]. eapply run_join; [exact E1|]. eapply run_join; [exact E2|exact E3].
Qed.
End KeptTable.
(** * Tables that are created or removed *)

Lemma create_runs n t db : good db -> t_name t = n -> In (n, t) (a_tables new) -> mget (cat n) db = None -> exists db', run db (rs (ast (AddTable t))) = Some db'.
Proof.
  intros G Et Hin Ab. destruct (Fn n t Hin) as (_ & _ & Fc). rewrite Forall_forall in Fc. assert (NDt : NoDup (map c_name (t_cols t))) by apply (proj2 Wn n t Hin).
  assert (Hc : forall c, In c (t_cols t) -> named n (c_name c)) by (intros c Hc; exists t; split; [now right|now exists c]).
  cbn [pg_op_ast map respell]. rewrite Et. change (spelled kw lower n) with (cat n). set (cds := map (respell_col kw lower) (map pg_coldef (t_cols t))).
  assert (Nm : map cd_name cds = map (fun c => cat (c_name c)) (t_cols t)) by (unfold cds; rewrite !map_map; reflexivity).
  assert (NDc : NoDup (map (fun c => cat (c_name c)) (t_cols t))).
  { rewrite <- (map_map c_name cat). apply NoDup_map_in; [exact NDt|]. intros x y Hx Hy E. apply in_map_iff in Hx as (c & <- & Hx), Hy as (c' & <- & Hy).
    apply (nc_columns _ _ _ _ Nc n); auto. }
  assert (Ow : flat_map own_cons cds = flat_map (own_of kw) (t_cols t)).
  { unfold cds. clear. induction (t_cols t) as [|c l IH]; [reflexivity|]. cbn [map flat_map]. now rewrite own_plain, IH. }
  assert (Ia : forall x, In x (all_cons cds []) <-> In x (flat_map (own_of kw) (t_cols t))).
  { intros x. unfold all_cons. rewrite Ow. cbn [map]. rewrite app_nil_r, in_app_iff, !filter_In. destruct (is_primary x); cbn; intuition discriminate. }
  assert (Ok' : forallb coldef_ok cds = true).
  { apply forallb_forall. intros d Hd. unfold cds in Hd. rewrite map_map in Hd. apply in_map_iff in Hd as (c & <- & _). unfold coldef_ok, respell_col, pg_coldef. cbn [cd_name cd_type cd_cons].
    assert (Dd : defaults ((if c_nullable c then [] else [KNotNull]) ++ (if c_pk c then [KPrimary false] else []) ++ (if c_unique c then [KUnique] else [])) = [])
      by (destruct (c_nullable c), (c_pk c), (c_unique c); reflexivity).
    rewrite Dd. destruct (is_some _), (c_nullable c), (c_pk c), (c_unique c); reflexivity. }
  set (b1 := {| p_cols := map pcol_of cds; p_cons := [] |}).
  destruct (add_all_ok (cat n) (all_cons cds []) (mput (cat n) b1 db) b1) as [db' E].
  - apply mget_mput_eq.
  - intros x Hx. apply Ia, in_flat_map in Hx as (c & Hx & Hy). pose proof (own_col c x Hy) as Ex. split; [|apply own_In in Hy; now destruct x].
    rewrite pcol_at_None. intros Z. apply Z. rewrite Ex. unfold b1. cbn [p_cols]. replace (map p_name (map pcol_of cds)) with (map cd_name cds) by (rewrite map_map; reflexivity).
    rewrite Nm. apply (in_map (fun c => cat (c_name c)) _ _ Hx).
  - unfold all_cons. rewrite Ow. cbn [map]. rewrite app_nil_r. pose proof (PgOps.own_all_nodup yes kw db0 _ NDc) as NDo. apply NoDup_app_iff. split; [now apply NoDup_filter|]. split; [now apply NoDup_filter|].
    intros x Hx Hy. apply filter_In in Hx as [_ Hx], Hy as [_ Hy]. rewrite Hx in Hy. discriminate.
  - intros x y Hx Hy Px Py. apply Ia, in_flat_map in Hx as (c & Hx & Ox), Hy as (c' & Hy & Oy). apply own_In in Ox, Oy. destruct x, y; try discriminate.
    destruct Ox as [A ->], Oy as [B ->]. now rewrite (pc_one _ _ Pc n t Hin c c').
  - intros x y _ _ [].
  - exists db'. eapply run1; [|reflexivity]. cbn [pexec0]. unfold pcreate. rewrite Ab. cbn [is_some]. rewrite Nm.
    assert (Dn : distinct (map (fun c => cat (c_name c)) (t_cols t)) = true).
    { revert NDc. generalize (map (fun c => cat (c_name c)) (t_cols t)). clear. induction l as [|x l IH]; [reflexivity|]. intros ND. inversion ND; subst. cbn. rewrite IH by assumption. rewrite andb_true_r.
      apply negb_true_iff. destruct (existsb (String.eqb x) l) eqn:E; [|reflexivity]. apply existsb_exists in E as (y & Hy & E). apply String.eqb_eq in E. now subst. }
    rewrite Dn, Ok'. exact E.
Qed.
Lemma drops_runs n cs : forall db b, good db -> table_named n -> (forall c, In c cs -> cat n = lower n /\ cat (c_name c) = lower (c_name c)) ->
  mget (cat n) db = Some b -> NoDup (map (fun c => cat (c_name c)) cs) -> (forall c, In c cs -> exists f, fk_col f = cat (c_name c) /\ has_cons b (PRef f)) ->
  exists db' b', run db (rs (map (fun c => DropConstraint false n (n ++ "_" ++ c_name c ++ "_fkey")) cs)) = Some db'
    /\ good db' /\ mget (cat n) db' = Some b' /\ forall f, has_cons b' (PRef f) -> has_cons b (PRef f) /\ forall c, In c cs -> fk_col f <> cat (c_name c).
Proof.
  induction cs as [|c cs IH]; intros db b G Hn Pl Gb ND Ex; cbn [map].
  { exists db, b. split; [reflexivity|]. split; [exact G|]. split; [exact Gb|]. intros f Hf. split; [exact Hf|intros ? []]. }
  cbn [map] in ND. inversion ND as [|? ? N1 N2]; subst. destruct (Pl c (or_introl eq_refl)) as [P1 P2]. cbn [respell].
  change (spelled kw lower n) with (cat n). rewrite !lower_app, <- P1, <- P2. set (f0 := {| fk_col := cat (c_name c); fk_table := ""; fk_ref := "" |}).
  change (cat n ++ lower "_" ++ cat (c_name c) ++ lower "_fkey")%string with (usual_name (cat n) (PRef f0)).
  destruct (drop_runs n (PRef f0) false db b G Hn Gb) as [db1 E1].
  { right. destruct (Ex c (or_introl eq_refl)) as (f & Ef & Hf). exists (PRef f). split; [exact Hf|]. unfold usual_name. cbn. now rewrite Ef. }
  { intros y z _ Uy Yz. apply usual_slot in Uy. destruct y; try contradiction. destruct Yz as [[=]|[=]]. }
  destruct (drop_step kw old new db0 Nc n (PRef f0) false db db1 b G Hn Gb E1) as (b1 & G1 & Gd1 & C1 & K1).
  assert (K1' : forall f, has_cons b1 (PRef f) <-> has_cons b (PRef f) /\ fk_col f <> cat (c_name c)).
  { intros f. rewrite K1, usual_slot. unfold f0. cbn [fk_col]. reflexivity. }
  destruct (IH db1 b1 Gd1 Hn) as (db' & b' & E' & Gd' & G' & K'); auto.
  { intros d Hd. apply Pl. now right. }
  { intros d Hd. destruct (Ex d (or_intror Hd)) as (f & Ef & Hf). exists f. split; [exact Ef|]. apply K1'. split; [exact Hf|]. rewrite Ef. intros E. apply N1. rewrite <- E. apply (in_map (fun c => cat (c_name c)) _ _ Hd). }
  exists db', b'. split; [eapply run1; [exact E1|exact E']|]. split; [exact Gd'|]. split; [exact G'|]. intros f Hf. apply K' in Hf as [Hf Nf]. apply K1' in Hf as [Hf Nf'].
  split; [exact Hf|]. intros d [<-|Hd]; auto.
Qed.
Lemma droptable_runs n db b : good db -> fine_refs db -> table_named n -> ~ has_table new n -> mget (cat n) db = Some b -> exists db', run db (rs (ast (RemoveTable n))) = Some db' /\ fine_refs db'.
Proof.
  intros G R Hn Nn Gb. cbn [pg_op_ast map respell]. change (spelled kw lower n) with (cat n). exists (mdel (cat n) db). split.
  - eapply run1; [|reflexivity]. cbn [pexec0]. unfold pdrop. rewrite Gb. destruct (existsb _ db) eqn:E; [|reflexivity]. exfalso.
    apply existsb_exists in E as ([m tb] & Hin & E). cbn [fst snd] in E. apply andb_true_iff in E as [_ E]. apply some_cons_iff in E as (x & Hx & E). destruct x as [y|y|f]; try discriminate.
    cbn in E. apply String.eqb_eq in E. apply In_mget in Hin; [|apply G].
    destruct (R m tb f Hin Hx) as [S|S]; [|rewrite E in S; now apply (S n)]. rewrite E in S.
    assert (X : forall C mk, marked new (cat n) C mk -> False).
    { intros C mk (k & t & c & Hk & _ & Ek & _). apply (nc_tables _ _ _ _ Nc) in Ek; [|right; now exists t|exact Hn]. subst k. apply Nn. now exists t. }
    destruct S as [[_ S]|[[_ S]|[_ [S|S]]]]; now apply X in S.
  - intros m d f Gd. rewrite mget_mdel in Gd. destruct (keqb_spec m (cat n)); [discriminate|]. now apply (R m d).
Qed.
Definition settled (db : pdb) : Prop := forall T C, marked new T C c_pk \/ marked new T C c_unique -> keyed db T C.
Lemma refs_runs n u cs : forall db b, good db -> settled db -> In (n, u) (a_tables new) -> ~ has_table old n -> (forall c, In c cs -> In c (t_cols u)) -> NoDup (map c_name cs) ->
  mget (cat n) db = Some b -> (forall c, In c cs -> pcol_at b (cat (c_name c)) <> None) -> (forall f c, In c cs -> fk_col f = cat (c_name c) -> ~ has_cons b (PRef f)) ->
  exists db', run db (rs (flat_map (pg_fk_ast n) cs)) = Some db' /\ settled db'.
Proof.
  induction cs as [|c cs IH]; intros db b G St Hu No Sub ND Gb Pr Fr; cbn [flat_map]; [exists db; auto|].
  inversion ND as [|? ? N1 N2]; subst. destruct (Fn n u Hu) as (_ & _ & Fc). rewrite Forall_forall in Fc.
  assert (Hc : forall d, In d (t_cols u) -> named n (c_name d)) by (intros d Hd; exists u; split; [now right|now exists d]).
  pose proof (Sub c (or_introl eq_refl)) as Ic.
  destruct (fkey_runs n c db b (Fc c Ic) Gb (Pr c (or_introl eq_refl))) as [db1 E1].
  { intros r Er. unfold targets. destruct (pr_first_refs _ _ _ _ Rd n u c r Hu No Ic Er) as [M|[M|[E X]]]; [apply St; auto|apply St; auto|now apply elsewhere_keyed]. }
  destruct (fkey_op pick (fun _ _ => true) Hp kw old new db0 Nc n c db db1 b G (Hc c Ic) (Fc c Ic) Gb) as (b1 & G1 & Gd1 & C1 & K1); [|exact E1|].
  { intros g Eg. apply (Fr g c); [now left|exact Eg]. }
  assert (Fm : touches (cat n) db db1) by (apply (prun_frame pick (fun _ _ => true) (cat n) (rs (pg_fk_ast n c))); [apply fk_about|apply G|exact E1]).
  destruct (IH db1 b1 Gd1) as (db' & E' & St'); auto.
  { intros T C M. apply (keyed_mono (cat n) db db1 b b1); auto; [apply Fm|intros k Hk; now rewrite C1|]. intros x Hx. destruct x; auto; apply K1; now left. }
  { intros d Hd. apply Sub. now right. }
  { intros d Hd. unfold pcol_at. rewrite C1. apply Pr. now right. }
  { intros f d Hd Ef Z. apply K1 in Z as [Z|(g & [= ->] & (r & _ & Z))].
    - apply (Fr f d); auto. now right.
    - subst g. cbn [fk_col] in Ef. apply (nc_columns _ _ _ _ Nc n) in Ef; [|now apply Hc|apply Hc, Sub; now right]. apply N1. rewrite Ef. now apply in_map. }
  exists db'. split; [|exact St']. eapply run_join; [exact E1|exact E'].
Qed.

(** * All tables *)

Lemma segment_runs (f : string -> list Operation) (Inv : pdb -> Prop) (Pre : string -> option ptab -> Prop) (R : string -> option ptab -> option ptab -> Prop) ns :
  (forall n, In n ns -> table_named n) -> NoDup ns -> (forall n op, In n ns -> In op (f n) -> op_table op = n) -> (forall db, Inv db -> good db) ->
  (forall n db, In n ns -> Inv db -> Pre n (mget (cat n) db) -> exists db', run db (rs (flat_map ast (f n))) = Some db' /\ Inv db' /\ R n (mget (cat n) db) (mget (cat n) db')) ->
  forall db, Inv db -> (forall n, In n ns -> Pre n (mget (cat n) db)) ->
    exists db', run db (rs (flat_map (fun n => flat_map ast (f n)) ns)) = Some db' /\ Inv db' /\ (forall m, (forall n, In n ns -> cat n <> m) -> mget m db' = mget m db)
      /\ (forall n, In n ns -> R n (mget (cat n) db) (mget (cat n) db')).
Proof.
  intros Hn ND Ha Hi Hs. induction ns as [|n ns IH]; intros db I P; cbn [flat_map].
  - exists db. split; [reflexivity|]. split; [exact I|]. split; [reflexivity|intros ? []].
  - inversion ND as [|? ? N1 N2]; subst. destruct (Hs n db (or_introl eq_refl) I (P n (or_introl eq_refl))) as (db1 & E1 & I1 & R1).
    assert (T : touches (cat n) db db1).
    { apply (prun_frame pick (fun _ _ => true) (cat n) (rs (flat_map ast (f n)))); [|apply Hi, I|exact E1]. apply ops_about. intros op. apply Ha. now left. }
    assert (Ne : forall m, In m ns -> cat m <> cat n).
    { intros m Hm E. apply (nc_tables _ _ _ _ Nc) in E; [subst; contradiction|apply Hn; now right|apply Hn; now left]. }
    destruct (IH (fun m Hm => Hn m (or_intror Hm)) N2 (fun m op Hm => Ha m op (or_intror Hm)) (fun m d Hm => Hs m d (or_intror Hm)) db1 I1) as (db' & E' & I' & O' & R').
    { intros m Hm. rewrite (proj2 T) by now apply Ne. apply P. now right. }
    exists db'. split; [eapply run_join; [exact E1|exact E']|]. split; [exact I'|]. split.
    + intros m Hm. rewrite O' by (intros k Hk; apply Hm; now right). apply (proj2 T). intros ->. now apply (Hm n (or_introl eq_refl)).
    + intros m [<-|Hm].
      * rewrite O'; [exact R1|]. intros m Hm. now apply Ne.
      * rewrite <- (proj2 T (cat m)) by now apply Ne. now apply R'.
Qed.
Notation N := (mkeys (a_tables new)).
Notation O := (mkeys (a_tables old)).

Theorem pg_runs : exists db, run db0 (rs (flat_map ast (d_all old new))) = Some db.
Proof.
  unfold d_all. rewrite !flat_map_app. unfold d_adds, d_uncon, d_drops, d_changes, d_cons. rewrite !flat_map_map, !flat_map_concat.
  rewrite (flat_map_ext (fun n => ast (AddTable (gt new n))) (fun n => flat_map ast [AddTable (gt new n)])) by (intros; cbn [flat_map]; now rewrite app_nil_r).
  rewrite (flat_map_ext (fun n => ast (RemoveTableConstraints (gt old n))) (fun n => flat_map ast [RemoveTableConstraints (gt old n)])) by (intros; cbn [flat_map]; now rewrite app_nil_r).
  rewrite (flat_map_ext (fun n => ast (RemoveTable n)) (fun n => flat_map ast [RemoveTable n])) by (intros; cbn [flat_map]; now rewrite app_nil_r).
  assert (NDn : NoDup (sdiff N O)) by (apply NoDup_filter; apply (nodup_N new Wn)).
  assert (NDo : NoDup (sdiff O N)) by (apply NoDup_filter; apply (nodup_O old Wo)).
  assert (NDb : NoDup (sinter N O)) by (apply NoDup_filter; apply (nodup_N new Wn)).
  pose proof (In_diff_new old new) as In_new. pose proof (In_diff_old old new) as In_old. pose proof (In_both yes old new db0) as In_kept.
  assert (Abs : forall n, In n (sdiff N O) -> mget (cat n) db0 = None) by (intros n Hn; apply In_new in Hn as [A B]; now apply (pr_absent _ _ _ _ Rd)).
  assert (G0 : good db0).
  { constructor; [exact S0| |reflexivity]. intros n b Hn Gb. destruct (in_dec string_dec n O) as [Hi|Hi].
    - apply has_table_keys in Hi. pose proof (gt_In old n Wo Hi) as A. destruct (H0 n _ A) as (b' & Gb' & T & U). assert (b' = b) by congruence. subst.
      apply (table_is_ok kw old new n (gt old n)); auto.
    - exfalso. rewrite Abs in Gb; [discriminate|]. apply In_new. rewrite <- has_table_keys in Hi. split; [|exact Hi]. destruct Hn as [Hn|Hn]; [contradiction|exact Hn]. }
  assert (Dist : forall n m, table_named n -> table_named m -> n <> m -> cat n <> cat m).
  { intros n m Hn Hm Ne E. apply Ne. now apply (nc_tables _ _ _ _ Nc). }
  (* new tables *)
  destruct (segment_runs (fun n => [AddTable (gt new n)]) good (fun _ o => o = None)
    (fun n _ o => exists b, o = Some b /\ created kw (gt new n) b) (sdiff N O)) with (db := db0) as (db1 & E1 & G1 & O1 & R1); auto.
  { intros n Hn. right. now apply In_new in Hn. }
  { intros n op Hn [<-|[]]. apply In_new in Hn as [Hn _]. now apply gt_name. }
  { intros n d Hn Gd Ab. apply In_new in Hn as [Hn _]. pose proof (gt_In new n Wn Hn) as A. pose proof (gt_name new n Wn Hn) as En.
    destruct (create_runs n (gt new n) d Gd En A Ab) as [d' Ed].
    destruct (create_op pick (fun _ _ => true) Hp kw show old new db0 Nc n (gt new n) d d' Gd) as (b' & Gb' & Gd' & C1 & C2); auto.
    - now right.
    - now apply (Fn n).
    - intros c Hc. exists (gt new n). split; [now right|now exists c].
    - exists d'. split; [cbn [flat_map]; now rewrite app_nil_r|]. split; [exact Gd'|]. exists b'. split; [exact Gb'|]. now split. }
  assert (Old1 : forall n, has_table old n -> mget (cat n) db1 = mget (cat n) db0).
  { intros n Hn. apply O1. intros m Hm. apply In_new in Hm as [Hm Nm]. apply Dist; [now right|now left|]. intros ->. contradiction. }
  (* references of removed tables *)
  destruct (segment_runs (fun n => [RemoveTableConstraints (gt old n)]) good (fun n o => exists b, o = Some b /\ pg_table_is kw (gt old n) b)
    (fun n _ o => exists b, o = Some b /\ forall f, ~ has_cons b (PRef f)) (sdiff O N)) with (db := db1) as (db2 & E2 & G2 & O2 & R2); auto.
  { intros n Hn. left. now apply In_old in Hn. }
  { intros n op Hn [<-|[]]. apply In_old in Hn as [Hn _]. now apply gt_name. }
  { intros n d Hn Gd (b & Gb & T1 & T2 & T3 & T4). apply In_old in Hn as [Hn Nn]. pose proof (gt_In old n Wo Hn) as A. pose proof (gt_name old n Wo Hn) as En.
    assert (Hw : forall c, In c (with_ref_cols (gt old n)) <-> In c (t_cols (gt old n)) /\ c_ref c <> None).
    { intros c. unfold with_ref_cols. rewrite filter_In. destruct (c_ref c); intuition (try congruence; try discriminate). }
    assert (NDc : NoDup (map (fun c => cat (c_name c)) (t_cols (gt old n)))).
    { rewrite <- (map_map c_name cat). apply NoDup_map_in; [apply (proj2 Wo n _ A)|]. intros x y Hx Hy E. apply in_map_iff in Hx as (c & <- & Hx), Hy as (c' & <- & Hy).
      apply (nc_columns _ _ _ _ Nc n); auto; exists (gt old n); (split; [now left|]); [now exists c|now exists c']. }
    destruct (drops_runs n (with_ref_cols (gt old n)) d b Gd) as (d' & b' & Ed & Gd' & Gb' & K); auto.
    - now left.
    - intros c Hc. apply Hw in Hc as [Hc Rc]. apply (nc_plain _ _ _ _ Nc). exists (gt old n), c. split; [exact A|]. split; [exact Hc|]. split; [reflexivity|]. left. auto.
    - unfold with_ref_cols. revert NDc. generalize (t_cols (gt old n)). clear. induction l as [|c l IH]; [auto|]. cbn [map filter]. intros ND. inversion ND as [|? ? N1 N2]; subst.
      destruct (match c_ref c with Some _ => true | None => false end); [|now apply IH]. cbn [map]. constructor; [|now apply IH]. intros H. apply N1.
      apply in_map_iff in H as (d & E & H). apply filter_In in H as [H _]. rewrite <- E. apply (in_map (fun c => cat (c_name c)) _ _ H).
    - intros c Hc. apply Hw in Hc as [Hc Rc]. destruct (Fo n _ A) as (_ & _ & Fc). rewrite Forall_forall in Fc. destruct (Fc c Hc) as (_ & _ & _ & _ & Fr).
      destruct (c_ref c) as [[r|]|] eqn:Er; [|contradiction..].
      exists {| fk_col := cat (c_name c); fk_table := cat (rl_table r); fk_ref := cat (rl_column r) |}. split; [reflexivity|]. apply T4. exists c. split; [exact Hc|]. exists r. auto.
    - exists d'. split; [cbn [flat_map pg_op_ast]; now rewrite app_nil_r, En|]. split; [exact Gd'|]. exists b'. split; [exact Gb'|]. intros f Hf. apply K in Hf as [Hf Nf].
      apply T4 in Hf as (c & Hc & r & Er & ->). apply (Nf c); [|reflexivity]. apply Hw. split; [exact Hc|congruence]. }
  { intros n Hn. apply In_old in Hn as [Hn Nn]. destruct (H0 n _ (gt_In old n Wo Hn)) as (b & Gb & T & _). exists b. rewrite Old1; auto. }
  (* what refers to what *)
  assert (Kept2 : forall n, In n (sinter N O) -> exists b, mget (cat n) db2 = Some b /\ pg_table_is kw (gt old n) b).
  { intros n Hn. apply In_kept in Hn as [Ho Hn]. destruct (H0 n _ (gt_In old n Wo Ho)) as (b & Gb & T & _). exists b. split; [|exact T]. rewrite O2, Old1; auto.
    intros m Hm. apply In_old in Hm as [Hm Nm]. apply Dist; [now left|now left|]. intros ->. contradiction. }
  assert (New2 : forall n, In n (sdiff N O) -> exists b, mget (cat n) db2 = Some b /\ created kw (gt new n) b).
  { intros n Hn. destruct (R1 n Hn) as (b & Gb & C). exists b. split; [|exact C]. rewrite O2; [exact Gb|]. apply In_new in Hn as [Hn Nn].
    intros m Hm. apply In_old in Hm as [Hm Nm]. apply Dist; [now left|now right|]. intros ->. contradiction. }
  assert (F2 : fine_refs db2).
  { intros m b f Gb Hf. destruct (in_dec string_dec m (map cat (N ++ O))) as [Hi|Hi].
    - apply in_map_iff in Hi as (n & <- & Hn). apply in_app_iff in Hn. rewrite <- !has_table_keys in Hn.
      destruct (in_dec string_dec n O) as [Io|Io]; rewrite <- has_table_keys in Io; [destruct (in_dec string_dec n N) as [In'|In']; rewrite <- has_table_keys in In'|].
      + destruct (Kept2 n) as (b' & Gb' & _ & _ & _ & T); [now apply In_kept|]. assert (b' = b) by congruence. subst b'. apply T in Hf as (c & Hc & r & Er & ->).
        apply (pr_old_refs _ _ _ _ Rd n (gt old n) c r); auto. now apply gt_In.
      + destruct (R2 n) as (b' & Gb' & T); [now apply In_old|]. assert (b' = b) by congruence. subst b'. now apply T in Hf.
      + destruct (New2 n) as (b' & Gb' & T); [apply In_new; tauto|]. assert (b' = b) by congruence. subst b'. apply (proj2 T) in Hf as (c & _ & Hf). apply own_In in Hf. destruct Hf.
    - assert (El : elsewhere m).
      { intros n Hn E. apply Hi. apply in_map_iff. exists n. split; [exact E|]. apply in_app_iff. rewrite <- !has_table_keys. destruct Hn; auto. }
      rewrite (g_other _ _ _ _ _ G2 m El) in Gb. now apply (pr_other_refs _ _ _ _ Rd m b f). }
  (* removed tables *)
  destruct (segment_runs (fun n => [RemoveTable n]) (fun d => good d /\ fine_refs d) (fun n o => exists b, o = Some b)
    (fun n _ o => True) (sdiff O N)) with (db := db2) as (db3 & E3 & [G3 F3] & O3 & _); auto.
  { intros n Hn. left. now apply In_old in Hn. }
  { now intros n op Hn [<-|[]]. }
  { tauto. }
  { intros n d Hn [Gd Fd] [b Gb]. apply In_old in Hn as [Hn Nn]. destruct (droptable_runs n d b Gd Fd (or_introl Hn) Nn Gb) as (d' & Ed & Fd').
    exists d'. split; [cbn [flat_map]; now rewrite app_nil_r|]. split; [|exact I]. split; [|exact Fd'].
    apply (droptable_op pick (fun _ _ => true) kw show old new db0 Nc n d d'); auto. now left. }
  { intros n Hn. destruct (R2 n Hn) as (b & Gb & _). eauto. }
  assert (Kept3 : forall n, In n (sinter N O) -> exists b, mget (cat n) db3 = Some b /\ pg_table_is kw (gt old n) b).
  { intros n Hn. rewrite O3; [now apply Kept2|]. apply In_kept in Hn as [Ho Hn]. intros m Hm. apply In_old in Hm as [Hm Nm]. apply Dist; [now left|now left|]. intros ->. contradiction. }
  assert (New3 : forall n, In n (sdiff N O) -> exists b, mget (cat n) db3 = Some b /\ created kw (gt new n) b).
  { intros n Hn. rewrite O3; [now apply New2|]. apply In_new in Hn as [Hn Nn]. intros m Hm. apply In_old in Hm as [Hm Nm]. apply Dist; [now left|now right|]. intros ->. contradiction. }
  assert (Cm3 : calm db3).
  { split; [exact F3|]. assert (X : forall T C mk (k : string -> pcons), (forall c, In (k (cat (c_name c))) (own_of kw c) <-> mk c = true) -> (marked old T C mk \/ fresh T) /\ marked new T C mk ->
      exists b, mget T db3 = Some b /\ has_cons b (k C)).
    { intros T C mk k Hk [Mo (n & u & c & Hu & Hc & <- & <- & Mc)]. assert (Hn : has_table new n) by now exists u. apply In_gt in Hu as [_ ->]; [|exact Wn].
      destruct (in_dec string_dec n O) as [Io|Io]; rewrite <- has_table_keys in Io.
      - destruct Mo as [(n' & t & o & Ht & Ho & En & Ec & Mo)|Mo]; [|exfalso; now apply (Mo n)]. apply (nc_tables _ _ _ _ Nc) in En; [|left; now exists t|now left]. subst n'.
        apply In_gt in Ht as [_ ->]; [|exact Wo]. destruct (Kept3 n) as (b & Gb & _ & _ & _ & T); [now apply In_kept|]. exists b. split; [exact Gb|]. apply T. exists o. split; [exact Ho|].
        apply (wants_split kw). left. rewrite <- Ec. now apply Hk.
      - destruct (New3 n) as (b & Gb & T); [now apply In_new|]. exists b. split; [exact Gb|]. apply T. exists c. split; [exact Hc|]. now apply Hk. }
    intros T [C|C|f] M; [apply (X T C c_pk PKey); [|exact M]|apply (X T C c_unique PUnique); [|exact M]|destruct M]; intros c; rewrite own_In; tauto. }
  (* kept tables *)
  destruct (segment_runs (table_ops old new) (fun d => good d /\ calm d) (fun n o => exists b, o = Some b /\ pg_table_is kw (gt old n) b)
    (fun n _ o => exists b, o = Some b /\ pg_table_is kw (gt new n) b) (sinter N O)) with (db := db3) as (db4 & E4 & [G4 C4] & O4 & R4); auto.
  { intros n Hn. left. now apply In_kept in Hn. }
  { intros n op Hn Hop. apply In_kept in Hn as [Ho Hn].
    unfold table_ops in Hop. destruct (kept_lists old new Wo Wn n (gt old n) (gt new n) (gt_In old n Wo Ho) (gt_In new n Wn Hn)) as (la & lr & lc & Ea & Er & Ec & _).
    rewrite Ea, Er, Ec in Hop. rewrite !in_app_iff, !in_map_iff in Hop. destruct Hop as [(x & <- & _)|[(x & <- & _)|(x & <- & _)]]; reflexivity. }
  { tauto. }
  { intros n d Hn [Gd Cd] (b & Gb & T). apply In_kept in Hn as [Ho Hn].
    destruct (kept_runs n (gt old n) (gt new n) (gt_In old n Wo Ho) (gt_In new n Wn Hn) d b Gd Cd Gb T) as (d' & Ed & Cd').
    destruct (kept_table pick (fun _ _ => true) Hp kw show read Hshow old new Wo Wn Fo Fn Df Pc db0 Nc n (gt old n) (gt new n) (gt_In old n Wo Ho) (gt_In new n Wn Hn) d d' b Gd Gb T Ed) as (Gd' & b' & Gb' & K).
    exists d'. split; [exact Ed|]. split; [now split|]. exists b'. split; [exact Gb'|apply K]. }
  assert (New4 : forall n, In n (sdiff N O) -> exists b, mget (cat n) db4 = Some b /\ created kw (gt new n) b).
  { intros n Hn. rewrite O4; [now apply New3|]. apply In_new in Hn as [Hn Nn]. intros m Hm. apply In_kept in Hm as [Hm Nm]. apply Dist; [now left|now right|]. intros ->. contradiction. }
  assert (St4 : settled db4).
  { assert (X : forall T C mk (k : string -> pcons), (forall c, In (k (cat (c_name c))) (own_of kw c) <-> mk c = true) -> marked new T C mk ->
      exists n b, table_named n /\ T = cat n /\ mget T db4 = Some b /\ has_cons b (k C)).
    { intros T C mk k Hk (n & u & c & Hu & Hc & <- & <- & Mc). assert (Hn : has_table new n) by now exists u. apply In_gt in Hu as [_ ->]; [|exact Wn]. exists n.
      destruct (in_dec string_dec n O) as [Io|Io]; rewrite <- has_table_keys in Io.
      - destruct (R4 n) as (b & Gb & _ & _ & _ & T); [now apply In_kept|]. exists b. split; [now right|]. split; [reflexivity|]. split; [exact Gb|]. apply T. exists c. split; [exact Hc|]. apply (wants_split kw). left. now apply Hk.
      - destruct (New4 n) as (b & Gb & T); [now apply In_new|]. exists b. split; [now right|]. split; [reflexivity|]. split; [exact Gb|]. apply T. exists c. split; [exact Hc|]. now apply Hk. }
    intros T C [M|M].
    - destruct (X T C c_pk PKey) as (n & b & Hn & -> & Gb & Hx); [intros c; rewrite own_In; tauto|exact M|]. apply (has_keyed n db4 b (PKey C)); auto.
    - destruct (X T C c_unique PUnique) as (n & b & Hn & -> & Gb & Hx); [intros c; rewrite own_In; tauto|exact M|]. apply (has_keyed n db4 b (PUnique C)); auto. }
  (* references of new tables *)
  destruct (segment_runs (con_of new) (fun d => good d /\ settled d) (fun n o => exists b, o = Some b /\ created kw (gt new n) b)
    (fun n _ _ => True) (sdiff N O)) with (db := db4) as (db5 & E5 & _); auto.
  { intros n Hn. right. now apply In_new in Hn. }
  { intros n op Hn Hop. apply In_new in Hn as [Hn _]. unfold con_of in Hop. destruct (has_ref (gt new n)); [destruct Hop as [<-|[]]|destruct Hop]. now apply gt_name. }
  { tauto. }
  { intros n d Hn [Gd Sd] (b & Gb & C). apply In_new in Hn as [Hn Nn]. pose proof (gt_In new n Wn Hn) as A. pose proof (gt_name new n Wn Hn) as En.
    unfold con_of. destruct (has_ref (gt new n)) eqn:Hrf; [|exists d; split; [reflexivity|split; [now split|exact I]]].
    cbn [flat_map pg_op_ast]. rewrite app_nil_r, En.
    destruct (refs_runs n (gt new n) (t_cols (gt new n)) d b Gd Sd A Nn) as (d' & Ed & Sd'); auto.
    - apply (proj2 Wn n _ A).
    - intros c Hc. rewrite pcol_at_None. intros Z. apply Z. change (cat (c_name c)) with (p_name (pcol_of (respell_col kw lower (pg_coldef c)))). apply in_map. apply (proj1 C). eauto.
    - intros f c Hc _ Z. apply (proj2 C) in Z as (c' & _ & Z). apply own_In in Z. exact Z.
    - exists d'. split; [exact Ed|]. split; [|exact I]. split; [|exact Sd'].
      destruct (refs_op pick (fun _ _ => true) Hp kw old new db0 Nc n (t_cols (gt new n)) d d' b Gd) as (b' & Gb' & Gd' & _); auto.
      + apply (Fn n _ A).
      + intros c Hc. exists (gt new n). split; [now right|now exists c].
      + apply (proj2 Wn n _ A).
      + intros f c Hc _ Z. apply (proj2 C) in Z as (c' & _ & Z). apply own_In in Z. exact Z. }
  exists db5. eapply run_join; [exact E1|]. eapply run_join; [exact E2|]. eapply run_join; [exact E3|]. eapply run_join; [exact E4|exact E5].
Qed.
End Ready.
