(** What a PostgreSQL migration script leaves in the catalogue when it has run. *)
From Verif Require Import Base SqlVal Sql Query QuerySpec Adb AdbSpec AdbProofs Literal LiteralSpec LiteralProofs
  Ddl DdlProofs DdlSpec SqliteDdl SqliteDdlProofs DdlFine PgDdl PgSem PgSpec PgDdlProofs PgLocal PgOps.

Lemma lit_denotes read show v : display_ok read show -> readable_literal v -> denotes read (written (lit_of show v)) v.
Proof.
  intros Hs R. destruct (literal_part show read Hs v R) as (s & E & L & _). destruct (literal_reads read show Hs v R) as (s' & E' & ts & D & L').
  assert (s' = s) by congruence. subst s'. specialize (L' ""%string Logic.I). specialize (L ""%string Logic.I).
  replace (written (lit_of show v)) with (lit_toks (lit_of show v)) by (destruct (lit_of show v) as [|[]| |]; reflexivity).
  unfold lex in L'. rewrite L in L'. apply app_inv_tail in L'. now subst.
Qed.
Lemma flat_map_map {A B C} (f : B -> list C) (g : A -> B) l : flat_map f (map g l) = flat_map (fun x => f (g x)) l.
Proof. induction l as [|x l IH]; [reflexivity|]. cbn. now rewrite IH. Qed.
Lemma flat_map_concat {A B C} (f : B -> list C) (g : A -> list B) l : flat_map f (concat (map g l)) = flat_map (fun x => flat_map f (g x)) l.
Proof. induction l as [|x l IH]; [reflexivity|]. cbn. now rewrite flat_map_app, IH. Qed.

Section Main.
Variable pick : pdb -> string -> string.
Variable allows : pdb -> ddl -> bool.
Hypothesis Hp : picks pick.
Variable kw : string -> bool.
Variable show : f64 -> string.
Variable read : bool -> string -> f64.
Hypothesis Hshow : display_ok read show.
Variables old new : ADB.
Hypothesis Wo : wf_schema old.
Hypothesis Wn : wf_schema new.
Hypothesis Fo : pg_schema_fine old.
Hypothesis Fn : pg_schema_fine new.
Hypothesis Df : pg_defaults_fine old new.
Hypothesis Pc : pg_change old new.
Variable db0 : pdb.
Hypothesis S0 : msorted db0.
Hypothesis H0 : pg_has kw old db0.
Hypothesis Nc : names_clear kw old new db0.
Notation cat := (cat kw).
Notation named := (named old new).
Notation table_named := (table_named old new).
Notation good := (good kw old new db0).
Notation tab_ok := (tab_ok kw old new).
Notation rs := (map (respell kw lower)).
Notation run := (prun pick allows).
Notation ast := (pg_op_ast show).

Lemma wants_at c x : wants kw c x -> cons_col x = cat (c_name c).
Proof. destruct x as [y|y|f]; cbn; [now intros [_ ->]..|]. now intros (r & _ & ->). Qed.

(** * Lists of operations on one table *)

Lemma adds_phase n la : forall db db' b, good db -> (forall c, In c la -> named n (c_name c) /\ pg_column_fine c /\ default_fine c) ->
  NoDup (map c_name la) -> mget (cat n) db = Some b -> run db (rs (flat_map ast (map (AddColumn n) la))) = Some db' ->
  exists b', mget (cat n) db' = Some b' /\ good db'
    /\ (forall c, In c la -> exists k, pcol_at b' (cat (c_name c)) = Some k /\ pg_declares kw c k)
    /\ (forall y, (forall c, In c la -> y <> cat (c_name c)) -> pcol_at b' y = pcol_at b y)
    /\ (forall x, has_cons b' x <-> has_cons b x \/ exists c, In c la /\ wants kw c x)
    /\ (forall c, In c la -> c_pk c = true -> forall y, has_cons b y -> is_primary y = false).
Proof.
  induction la as [|c la IH]; intros db db' b G Hc ND Gb H; cbn [map flat_map] in H.
  - apply run_nil in H. subst db'. exists b. split; [exact Gb|]. split; [exact G|]. split; [intros ? []|]. split; [reflexivity|]. split; [|intros ? []].
    intros x. split; [now left|]. intros [Z|(c & [] & _)]; exact Z.
  - apply run_app in H as (db1 & H1 & H2). inversion ND as [|? ? N1 N2]; subst. destruct (Hc c (or_introl eq_refl)) as (Hn & Fc & Dc).
    destruct (add_op pick allows Hp kw show old new db0 Nc n c db db1 b G Hn Fc Dc Gb H1) as (b1 & G1 & Gd1 & _ & (k & Gk & Dk) & P1 & K1 & Q1).
    destruct (IH db1 db' b1 Gd1) as (b' & G' & Gd' & D' & P' & K' & Q'); try assumption; [intros d Hd; apply Hc; now right|].
    assert (Ne : forall d, In d la -> cat (c_name c) <> cat (c_name d)).
    { intros d Hd E. apply (nc_columns _ _ _ _ Nc n) in E; [|exact Hn|apply Hc; now right]. apply N1. rewrite E. now apply in_map. }
    exists b'. split; [exact G'|]. split; [exact Gd'|]. split; [|split; [|split]].
    + intros d [<-|Hd]; [|now apply D']. exists k. split; [|exact Dk]. rewrite P' by exact Ne. exact Gk.
    + intros y Hy. rewrite P' by (intros d Hd; apply Hy; now right). apply P1. apply Hy. now left.
    + intros x. rewrite K', K1. split.
      * intros [[Z|Z]|(d & Hd & Z)]; [now left|right; exists c; split; [now left|exact Z]|right; exists d; split; [now right|exact Z]].
      * intros [Z|(d & [<-|Hd] & Z)]; [now do 2 left|left; now right|right; now exists d].
    + intros d [<-|Hd] Pd; [now apply Q1|]. intros y Hy. apply (Q' d Hd Pd). apply K1. now left.
Qed.
Lemma removes_phase n lr : forall db db' b, good db -> (forall m, In m lr -> named n m) -> mget (cat n) db = Some b ->
  run db (rs (flat_map ast (map (RemoveColumn n) lr))) = Some db' ->
  exists b', mget (cat n) db' = Some b' /\ good db'
    /\ (forall y, (forall m, In m lr -> y <> cat m) -> pcol_at b' y = pcol_at b y)
    /\ (forall m, In m lr -> pcol_at b' (cat m) = None)
    /\ (forall x, has_cons b' x <-> has_cons b x /\ forall m, In m lr -> cons_col x <> cat m).
Proof.
  induction lr as [|m lr IH]; intros db db' b G Hm Gb H; cbn [map flat_map] in H.
  - apply run_nil in H. subst db'. exists b. split; [exact Gb|]. split; [exact G|]. split; [reflexivity|]. split; [intros ? []|]. intros x. split; [|now intros [? _]].
    intros Z. split; [exact Z|intros ? []].
  - apply run_app in H as (db1 & H1 & H2).
    destruct (remove_op pick allows kw show old new db0 Nc n m db db1 b G (Hm m (or_introl eq_refl)) Gb H1) as (b1 & G1 & Gd1 & N1 & P1 & K1).
    destruct (IH db1 db' b1 Gd1) as (b' & G' & Gd' & P' & N' & K'); try assumption; [intros d Hd; apply Hm; now right|].
    exists b'. split; [exact G'|]. split; [exact Gd'|]. split; [|split].
    + intros y Hy. rewrite P' by (intros d Hd; apply Hy; now right). apply P1. apply Hy. now left.
    + intros d [<-|Hd]; [|now apply N']. destruct (in_dec string_dec (cat m) (map cat lr)) as [Hi|Hi].
      * apply in_map_iff in Hi as (d & E & Hd). rewrite <- E. now apply N'.
      * rewrite P'; [exact N1|]. intros d Hd E. apply Hi. rewrite E. now apply in_map.
    + intros x. rewrite K', K1. split.
      * intros [[Z1 Z2] Z3]. split; [exact Z1|]. intros d [<-|Hd]; auto.
      * intros [Z1 Z2]. split; [split; [exact Z1|apply Z2; now left]|]. intros d Hd. apply Z2. now right.
Qed.
Definition change_fine (n : string) (p : AColumn * AColumn) : Prop :=
  named n (c_name (fst p)) /\ c_name (fst p) = c_name (snd p) /\ cat n = lower n /\ cat (c_name (fst p)) = lower (c_name (fst p))
  /\ pg_column_fine (fst p) /\ pg_column_fine (snd p) /\ c_auto (snd p) = c_auto (fst p).
Lemma changes_phase n lc : forall db db' b, good db -> (forall p, In p lc -> change_fine n p) ->
  NoDup (map (fun p => c_name (fst p)) lc) -> mget (cat n) db = Some b ->
  (forall p, In p lc -> exists k, pcol_at b (cat (c_name (fst p))) = Some k /\ pg_declares kw (fst p) k) ->
  (forall p x, In p lc -> cons_col x = cat (c_name (fst p)) -> is_primary x = false -> has_cons b x <-> wants kw (fst p) x) ->
  run db (rs (flat_map ast (map (fun p => ChangeColumn n (fst p) (snd p)) lc))) = Some db' ->
  exists b', mget (cat n) db' = Some b' /\ good db'
    /\ (forall p, In p lc -> exists k k', pcol_at b (cat (c_name (fst p))) = Some k /\ pcol_at b' (cat (c_name (fst p))) = Some k' /\ pg_declares kw (snd p) k'
         /\ (if opt_eqb sqlval_eqb (c_default (fst p)) (c_default (snd p)) then p_default k' = p_default k else lit_default show (snd p) k'))
    /\ (forall y, (forall p, In p lc -> y <> cat (c_name (fst p))) -> pcol_at b' y = pcol_at b y)
    /\ (forall p x, In p lc -> is_primary x = false -> cons_col x = cat (c_name (fst p)) -> has_cons b' x <-> wants kw (snd p) x)
    /\ (forall x, is_primary x = false -> (forall p, In p lc -> cons_col x <> cat (c_name (fst p))) -> has_cons b' x <-> has_cons b x)
    /\ ((forall p, In p lc -> promotes (fst p) (snd p) = false) -> forall y, has_cons b' (PKey y) <-> has_cons b (PKey y))
    /\ (forall p, In p lc -> promotes (fst p) (snd p) = true -> (forall q, In q lc -> promotes (fst q) (snd q) = true -> q = p) ->
         forall y, has_cons b' (PKey y) <-> y = cat (c_name (fst p))).
Proof.
  induction lc as [|[o c] lc IH]; intros db db' b G Hc ND Gb Dk Kw H; cbn [map flat_map fst snd] in H.
  - apply run_nil in H. subst db'. exists b. split; [exact Gb|]. split; [exact G|]. split; [intros ? []|]. split; [reflexivity|]. split; [intros ? ? []|].
    split; [reflexivity|]. split; [reflexivity|intros ? []].
  - apply run_app in H as (db1 & H1 & H2). cbn [map fst] in ND. inversion ND as [|? ? N1 N2]; subst.
    destruct (Hc (o, c) (or_introl eq_refl)) as (Hn & En & Pl & Pcn & Fco & Fcc & Au). cbn [fst snd] in *.
    destruct (Dk (o, c) (or_introl eq_refl)) as (k & Gk & Dc). cbn [fst] in Gk, Dc.
    destruct (change_op pick allows Hp kw show old new db0 Nc n o c db db1 b k G Hn En Pl Pcn Fco Fcc Au Gb Gk Dc) as (b1 & k1 & G1 & Gd1 & Gk1 & Dk1 & Dd1 & P1 & K1 & K1' & Q1); [|exact H1|].
    { intros x Ex Px. apply (Kw (o, c) x); auto. now left. }
    assert (Ne : forall p, In p lc -> cat (c_name o) <> cat (c_name (fst p))).
    { intros p Hp' E. apply (nc_columns _ _ _ _ Nc n) in E; [|exact Hn|apply Hc; now right]. apply N1. rewrite E. apply (in_map (fun p => c_name (fst p)) _ _ Hp'). }
    destruct (IH db1 db' b1 Gd1) as (b' & G' & Gd' & D' & P' & K' & L' & M' & U'); try assumption.
    { intros p Hp'. apply Hc. now right. }
    { intros p Hp'. rewrite P1 by (intros E; now apply (Ne p)). apply Dk. now right. }
    { intros p x Hp' Ex Px. rewrite K1'; [apply Kw; auto; now right|exact Px|]. rewrite Ex. intros E. now apply (Ne p). }
    exists b'. split; [exact G'|]. split; [exact Gd'|]. split; [|split; [|split; [|split; [|split]]]].
    + intros p [<-|Hp'].
      * exists k, k1. cbn [fst snd]. split; [exact Gk|]. split; [rewrite P' by exact Ne; exact Gk1|]. now split.
      * destruct (D' p Hp') as (k2 & k3 & A1 & A2 & A3 & A4). rewrite P1 in A1 by (intros E; now apply (Ne p)). exists k2, k3. auto.
    + intros y Hy. rewrite P' by (intros d Hd; apply Hy; now right). apply P1. apply (Hy (o, c)). now left.
    + intros p x [<-|Hp'] Px Ex; cbn [fst snd] in *; [|now apply K'].
      rewrite L'; [now apply K1|exact Px|]. rewrite Ex. exact Ne.
    + intros x Px Hx. rewrite L' by (auto; intros d Hd; apply Hx; now right). apply K1'; [exact Px|]. apply (Hx (o, c)). now left.
    + intros Np y. rewrite M' by (intros p Hp'; apply Np; now right). rewrite Q1. pose proof (Np (o, c) (or_introl eq_refl)) as Z. cbn [fst snd] in Z. now rewrite Z.
    + intros p [<-|Hp'] Pp Un y; cbn [fst snd] in *.
      * rewrite M'; [rewrite Q1, Pp; reflexivity|]. intros q Hq. destruct (promotes (fst q) (snd q)) eqn:Pq; [|reflexivity].
        exfalso. pose proof (Un q (or_intror Hq) Pq) as E. apply (Ne q Hq). now rewrite E.
      * apply U'; auto. intros q Hq. apply Un. now right.
Qed.

(** * A table that is kept *)

Lemma same_pg_words a c : same_column a c -> pg_words a = pg_words c.
Proof. intros S. pose proof (sc_type _ _ S) as T. unfold same_type in T. unfold pg_words. now rewrite T. Qed.
Lemma same_pg_declares a c k : same_column a c -> pg_declares kw a k -> pg_declares kw c k.
Proof.
  intros S (H1 & H2 & H3 & H4). pose proof (same_pg_words a c S). destruct S. unfold pg_declares. repeat split; try congruence; intros Z.
  - apply H4 in Z. congruence.
  - apply H4. congruence.
Qed.
Lemma same_pg_wants a c x : same_column a c -> wants kw a x -> wants kw c x.
Proof.
  intros S. destruct x as [y|y|f]; cbn.
  - rewrite (sc_pk _ _ S), (sc_name _ _ S). auto.
  - rewrite (sc_unique _ _ S), (sc_name _ _ S). auto.
  - intros (r & E & ->). pose proof (sc_ref _ _ S) as R. rewrite E in R. unfold same_opt in R. destruct (c_ref c) as [[r'|z]|] eqn:Eb; try contradiction.
    cbn in R. subst r'. exists r. split; [exact Eb|]. now rewrite (sc_name _ _ S).
Qed.

Section Kept.
Variables (n : string) (t u : ATable).
Hypothesis Ht : In (n, t) (a_tables old).
Hypothesis Hu : In (n, u) (a_tables new).
Let NDt : NoDup (map c_name (t_cols t)).
Proof. apply (proj2 Wo n t Ht). Qed.
Let NDu : NoDup (map c_name (t_cols u)).
Proof. apply (proj2 Wn n u Hu). Qed.
Let nt : t_name t = n.
Proof. apply (proj2 Wo n t Ht). Qed.
Let nu : t_name u = n.
Proof. apply (proj2 Wn n u Hu). Qed.
Let named_t c : In c (t_cols t) -> named n (c_name c).
Proof. intros H. exists t. split; [now left|]. now exists c. Qed.
Let named_u c : In c (t_cols u) -> named n (c_name c).
Proof. intros H. exists u. split; [now right|]. now exists c. Qed.
Let fine_t c : In c (t_cols t) -> pg_column_fine c.
Proof. intros H. destruct (Fo n t Ht) as (_ & _ & F). rewrite Forall_forall in F. now apply F. Qed.
Let fine_u c : In c (t_cols u) -> pg_column_fine c.
Proof. intros H. destruct (Fn n u Hu) as (_ & _ & F). rewrite Forall_forall in F. now apply F. Qed.
Let one_t c c' : In c (t_cols t) -> In c' (t_cols t) -> c_name c = c_name c' -> c = c'.
Proof. intros A B E. pose proof (In_col_by_name _ _ NDt A) as Y1. pose proof (In_col_by_name _ _ NDt B) as Y2. rewrite E in Y1. congruence. Qed.
Let one_u c c' : In c (t_cols u) -> In c' (t_cols u) -> c_name c = c_name c' -> c = c'.
Proof. intros A B E. pose proof (In_col_by_name _ _ NDu A) as Y1. pose proof (In_col_by_name _ _ NDu B) as Y2. rewrite E in Y1. congruence. Qed.
Let cat_tu c c' : In c (t_cols t) -> In c' (t_cols u) -> cat (c_name c) = cat (c_name c') -> c_name c = c_name c'.
Proof. intros A B. apply (nc_columns _ _ _ _ Nc n); auto. Qed.

(** The three lists of operations. *)
Lemma kept_lists : exists la lr lc,
  adds t u = map (AddColumn n) la /\ removes t u = map (RemoveColumn n) lr /\ changes t u = map (fun p => ChangeColumn n (fst p) (snd p)) lc
  /\ NoDup (map c_name la) /\ NoDup (map (fun p => c_name (fst p)) lc)
  /\ (forall c, In c la <-> In c (t_cols u) /\ ~ has_column t (c_name c))
  /\ (forall m, In m lr <-> has_column t m /\ ~ has_column u m)
  /\ (forall o c, In (o, c) lc <-> In o (t_cols t) /\ In c (t_cols u) /\ c_name o = c_name c /\ ~ same_column o c).
Proof.
  set (nn := set_of_list (map c_name (t_cols u))). set (on := set_of_list (map c_name (t_cols t))).
  exists (map (get_col (t_cols u)) (sdiff nn on)), (sdiff on nn),
    (map (fun m => (get_col (t_cols t) m, get_col (t_cols u) m)) (filter (fun m => negb (acol_eqb (get_col (t_cols u) m) (get_col (t_cols t) m))) (sinter nn on))).
  assert (Sn : NoDup nn) by apply sorted_NoDup, set_of_list_sorted.
  split; [unfold adds; rewrite nu, map_map; reflexivity|]. split; [unfold removes; now rewrite nt|]. split; [|split; [|split; [|split; [|split]]]].
  - unfold changes. fold nn on. rewrite map_map. induction (sinter nn on) as [|m l IH]; [reflexivity|]. cbn [map concat filter]. rewrite IH. unfold change_of at 1.
    destruct (acol_eqb (get_col (t_cols u) m) (get_col (t_cols t) m)); cbn [negb]; [reflexivity|]. cbn. now rewrite nu.
  - rewrite map_map. rewrite (map_ext_in _ (fun m => m)), map_id.
    + apply NoDup_filter, Sn.
    + intros m Hm. apply get_col_name. apply sdiff_In in Hm as [Hm _]. unfold nn in Hm. now rewrite set_of_list_In in Hm.
  - rewrite map_map. cbn [fst]. rewrite (map_ext_in _ (fun m => m)), map_id.
    + apply NoDup_filter, NoDup_filter, Sn.
    + intros m Hm. apply get_col_name. apply filter_In in Hm as [Hm _]. apply sinter_In in Hm as [_ Hm]. unfold on in Hm. now rewrite set_of_list_In in Hm.
  - intros c. rewrite in_map_iff, has_column_names. unfold nn, on. split.
    + intros (m & <- & Hm). rewrite sdiff_In, !set_of_list_In in Hm. destruct Hm as [A B].
      pose proof (get_col_some _ _ A) as Y. apply col_by_name_In in Y as [Y1 Y2]. split; [exact Y1|]. now rewrite Y2.
    + intros [A B]. exists (c_name c). apply (In_get_col _ _ NDu) in A as [A1 A2]. split; [exact A2|]. rewrite sdiff_In, !set_of_list_In. now split.
  - intros m. unfold nn, on. rewrite sdiff_In, !set_of_list_In, !has_column_names. reflexivity.
  - intros o c. rewrite in_map_iff. unfold nn, on. split.
    + intros (m & [= <- <-] & Hm). apply filter_In in Hm as [Hm E]. rewrite sinter_In, !set_of_list_In in Hm. destruct Hm as [A B].
      pose proof (get_col_some _ _ A) as Y. apply col_by_name_In in Y as [Y1 Y2]. pose proof (get_col_some _ _ B) as Z. apply col_by_name_In in Z as [Z1 Z2].
      split; [exact Z1|]. split; [exact Y1|]. split; [congruence|]. intros Sm. apply same_column_sym, acol_eqb_iff in Sm. rewrite Sm in E. discriminate.
    + intros (A & B & E & Ns). exists (c_name c). apply (In_get_col _ _ NDt) in A as [A1 A2]. apply (In_get_col _ _ NDu) in B as [B1 B2].
      rewrite E in A1, A2. split; [congruence|]. apply filter_In. split; [rewrite sinter_In, !set_of_list_In; auto|]. apply negb_true_iff.
      destruct (acol_eqb (get_col (t_cols u) (c_name c)) (get_col (t_cols t) (c_name c))) eqn:Ea; [|reflexivity]. exfalso. apply Ns.
      apply acol_eqb_iff, same_column_sym in Ea. congruence.
Qed.

Definition kept (b b' : ptab) : Prop :=
  pg_table_is kw u b'
  /\ forall o c, In o (t_cols t) -> In c (t_cols u) -> c_name o = c_name c ->
       exists k k', pcol_at b (cat (c_name o)) = Some k /\ pcol_at b' (cat (c_name o)) = Some k'
         /\ (same_opt sqlval_same (c_default o) (c_default c) -> p_default k' = p_default k)
         /\ (~ same_opt sqlval_same (c_default o) (c_default c) -> declared_default read c k').

Lemma kept_table db db' b : good db -> mget (cat n) db = Some b -> pg_table_is kw t b -> run db (rs (flat_map ast (adds t u ++ removes t u ++ changes t u))) = Some db' ->
  good db' /\ exists b', mget (cat n) db' = Some b' /\ kept b b'.
Proof.
  intros G Gb (ND & T1 & T2 & T3) H. destruct kept_lists as (la & lr & lc & Ea & Er & Ec & NDa & NDc & La & Lr & Lc). rewrite Ea, Er, Ec in H.
  rewrite !flat_map_app in H. apply run_app in H as (db1 & H1 & H). apply run_app in H as (db2 & H2 & H3).
  assert (I1 : forall c, In c (t_cols t) -> exists k, pcol_at b (cat (c_name c)) = Some k /\ pg_declares kw c k).
  { intros c Hc. destruct (T1 c Hc) as (k & Hk & D). exists k. split; [|exact D]. rewrite <- (proj1 D). now apply In_pcol_at. }
  assert (I2 : forall y k, pcol_at b y = Some k -> exists c, In c (t_cols t) /\ y = cat (c_name c)).
  { intros y k Gy. apply pcol_at_In in Gy as [Hk <-]. destruct (T2 k Hk) as (c & Hc & D). exists c. split; [exact Hc|apply D]. }
  destruct (adds_phase n la db db1 b G) as (b1 & G1 & Gd1 & D1 & P1 & K1 & Q1); try assumption.
  { intros c Hc. pose proof (proj1 (La c) Hc) as [A B]. split; [now apply named_u|]. split; [now apply fine_u|]. apply (proj1 Df n). exists t, u. auto 10. }
  destruct (removes_phase n lr db1 db2 b1 Gd1) as (b2 & G2 & Gd2 & P2 & N2 & K2); try assumption.
  { intros m Hm. apply Lr in Hm as [A _]. exists t. auto. }
  (* columns of both tables *)
  assert (Both : forall o c, In o (t_cols t) -> In c (t_cols u) -> c_name o = c_name c -> In (o, c) lc \/ same_column o c).
  { intros o c A B E. destruct (acol_eqb o c) eqn:Eq; [right; now apply acol_eqb_iff|left]. apply Lc. repeat split; try assumption.
    intros S. apply acol_eqb_iff in S. congruence. }
  assert (Ku : forall o c, In o (t_cols t) -> In c (t_cols u) -> c_name o = c_name c -> pcol_at b2 (cat (c_name o)) = pcol_at b (cat (c_name o))).
  { intros o c A B E. rewrite P2, P1; [reflexivity| |].
    - intros d Hd Z. apply La in Hd as [Hd Nd]. apply cat_tu in Z; [|assumption..]. apply Nd. exists o. auto.
    - intros m Hm Z. apply Lr in Hm as [(d & Hd & <-) Nm]. apply (nc_columns _ _ _ _ Nc n) in Z; auto. apply Nm. exists c. split; [exact B|congruence]. }
  destruct (changes_phase n lc db2 db' b2 Gd2) as (b3 & G3 & Gd3 & D3 & P3 & K3 & L3 & M3 & U3); try assumption.
  { intros [o c] Hp'. pose proof (proj1 (Lc o c) Hp') as (A & B & E & Ns). unfold change_fine. cbn [fst snd].
    assert (Ch : changed_column old new n o c) by (exists t, u; auto 10).
    destruct (nc_plain _ _ _ _ Nc n (c_name o)) as [Z1 Z2]; [exists t, o; eauto 6|]. repeat split; auto; try (now apply fine_t); try (now apply fine_u). now apply (pc_auto _ _ Pc n). }
  { intros [o c] Hp'. pose proof (proj1 (Lc o c) Hp') as (A & B & E & Ns). cbn [fst]. rewrite (Ku o c) by assumption. now apply I1. }
  { intros [o c] x Hp' Ex Px. pose proof (proj1 (Lc o c) Hp') as (A & B & E & Ns). cbn [fst] in *. rewrite K2, K1. split.
    - intros [[Z|(d & Hd & Z)] _].
      + apply T3 in Z as (d & Hd & Z). pose proof (wants_at _ _ Z) as Z'. assert (d = o); [|now subst]. apply one_t; auto. apply (nc_columns _ _ _ _ Nc n); auto. congruence.
      + exfalso. apply La in Hd as [Hd Nd]. apply wants_at in Z. apply Nd. exists o. split; [exact A|]. apply cat_tu; auto. congruence.
    - intros Z. split; [left; apply T3; eauto|]. intros m Hm Zm. apply Lr in Hm as [(d & Hd & <-) Nm]. rewrite Ex in Zm. apply (nc_columns _ _ _ _ Nc n) in Zm; auto.
      apply Nm. exists c. split; [exact B|congruence]. }
  split; [exact Gd3|]. exists b3. split; [exact G3|].
  assert (Fwd : forall c, In c (t_cols u) -> exists k, pcol_at b3 (cat (c_name c)) = Some k /\ pg_declares kw c k).
  { intros c Hc. destruct (in_dec string_dec (c_name c) (map c_name (t_cols t))) as [Hi|Hi].
    - apply in_map_iff in Hi as (o & E & Ho). destruct (Both o c Ho Hc E) as [Hl|Sm].
      + destruct (D3 _ Hl) as (k & k' & _ & Y & Y' & _). cbn [fst snd] in *. rewrite <- E. eauto.
      + destruct (I1 o Ho) as (k & Y & Y'). exists k. split; [|now apply (same_pg_declares o)]. rewrite <- E, P3; [now rewrite (Ku o c)|].
        intros [o' c'] Hl Z. pose proof (proj1 (Lc o' c') Hl) as (A & B & E' & Ns). cbn [fst] in Z. apply (nc_columns _ _ _ _ Nc n) in Z; auto.
        assert (o = o') by auto. subst o'. assert (c' = c) by (apply one_u; congruence). subst c'. contradiction.
    - assert (Ha : In c la) by (apply La; split; [exact Hc|]; now rewrite has_column_names).
      destruct (D1 c Ha) as (k & Y & Y'). exists k. split; [|exact Y']. rewrite P3, P2; [exact Y| |].
      + intros m Hm Z. apply Lr in Hm as [(d & Hd & <-) Nm]. symmetry in Z. apply cat_tu in Z; auto. apply Hi. rewrite <- Z. now apply in_map.
      + intros [o' c'] Hl Z. pose proof (proj1 (Lc o' c') Hl) as (A & B & E' & Ns). cbn [fst] in Z. symmetry in Z. apply cat_tu in Z; auto. apply Hi. rewrite <- Z. now apply in_map. }
  assert (NDb : NoDup (map p_name (p_cols b3))).
  { apply (o_nodup _ _ _ _ _ (g_tab _ _ _ _ _ Gd3 n b3 (or_intror (ex_intro _ u Hu)) G3)). }
  split; [split; [exact NDb|split; [|split]]|].
  - intros c Hc. destruct (Fwd c Hc) as (k & Y & D). exists k. split; [now apply pcol_at_In in Y|exact D].
  - intros k Hk. pose proof (In_pcol_at _ _ NDb Hk) as Y. set (y := p_name k) in *.
    destruct (in_dec string_dec y (map (fun c => cat (c_name c)) (t_cols u))) as [Hi|Hi].
    + apply in_map_iff in Hi as (c & E & Hc). destruct (Fwd c Hc) as (k' & Y' & D). rewrite E in Y'. exists c. split; [exact Hc|]. congruence.
    + exfalso. assert (Hi' : forall c, In c (t_cols u) -> y <> cat (c_name c)).
      { intros c Hc E. apply Hi. rewrite E. apply (in_map (fun c => cat (c_name c)) _ _ Hc). }
      rewrite P3 in Y.
      * destruct (in_dec string_dec y (map cat lr)) as [Hr|Hr].
        -- apply in_map_iff in Hr as (m & E & Hm). rewrite <- E, N2 in Y by exact Hm. discriminate.
        -- rewrite P2, P1 in Y.
           ++ destruct (I2 y k Y) as (o & Ho & E). apply Hr. rewrite E. apply in_map. apply Lr. split; [now exists o|].
              intros (c & Hc & E'). apply (Hi' c Hc). congruence.
           ++ intros c Hc. apply La in Hc as [Hc _]. now apply Hi'.
           ++ intros m Hm E. apply Hr. rewrite E. now apply in_map.
      * intros [o c] Hl. apply Lc in Hl as (A & B & E & _). cbn [fst]. rewrite E. now apply Hi'.
  - change (forall x, has_cons b3 x <-> exists c, In c (t_cols u) /\ wants kw c x).
    assert (Lnot : forall c, In c (t_cols u) -> forall m, In m lr -> cat (c_name c) <> cat m).
    { intros c Hc m Hm E. apply Lr in Hm as [(d & Hd & <-) Nm]. symmetry in E. apply cat_tu in E; auto. apply Nm. exists c. auto. }
    intros x. destruct (is_primary x) eqn:Px.
    + destruct x as [y|y|f]; try discriminate. cbn [wants].
      destruct (existsb (fun p => promotes (fst p) (snd p)) lc) eqn:Ep.
      * apply existsb_exists in Ep as ([o c] & Hl & Pp). pose proof (proj1 (Lc o c) Hl) as (A & B & E & Ns). cbn [fst snd] in Pp.
        assert (Pk : c_pk c = true) by (unfold promotes in Pp; now apply andb_true_iff in Pp).
        assert (Uq : forall q, In q lc -> promotes (fst q) (snd q) = true -> q = (o, c)).
        { intros [o' c'] Hq Pq. pose proof (proj1 (Lc o' c') Hq) as (A' & B' & E' & Ns'). cbn [fst snd] in Pq. unfold promotes in Pq. apply andb_true_iff in Pq as [_ Pq].
          assert (c' = c) by (now apply (pc_one _ _ Pc n u)). subst c'. assert (o' = o) by (apply one_t; congruence). now subst. }
        rewrite (U3 _ Hl Pp Uq y). cbn [fst]. split.
        -- intros ->. exists c. rewrite E. auto.
        -- intros (c' & Hc' & Pk' & ->). assert (c' = c) by (now apply (pc_one _ _ Pc n u)). subst. now rewrite E.
      * assert (Np : forall p, In p lc -> promotes (fst p) (snd p) = false).
        { intros p Hp'. destruct (promotes (fst p) (snd p)) eqn:Z; [|reflexivity]. exfalso.
          assert (Z' : existsb (fun p => promotes (fst p) (snd p)) lc = true) by (apply existsb_exists; eauto). congruence. }
        rewrite (M3 Np), K2, K1. cbn [wants cons_col]. split.
        -- intros [[Z|(c & Hc & Z)] Nr].
           ++ pose proof Z as Z0. apply T3 in Z as (o & Ho & Pko & ->).
              destruct (in_dec string_dec (c_name o) (map c_name (t_cols u))) as [Hi|Hi].
              ** apply in_map_iff in Hi as (c & E & Hc). symmetry in E. exists c. split; [exact Hc|]. split; [|now rewrite E].
                 destruct (c_pk c) eqn:Pkc; [reflexivity|]. exfalso.
                 destruct (pc_stays _ _ Pc n t u o Ht Hu Ho Pko) as (c' & Hc' & Pkc').
                 destruct (in_dec string_dec (c_name c') (map c_name (t_cols t))) as [Hi|Hi].
                 --- apply in_map_iff in Hi as (o' & E' & Ho').
                     assert (Po' : c_pk o' = true).
                     { destruct (Both o' c' Ho' Hc' E') as [Hl|Sm]; [|now rewrite (sc_pk _ _ Sm)].
                       pose proof (Np _ Hl) as Z. cbn [fst snd] in Z. unfold promotes in Z. rewrite Pkc', andb_true_r in Z. now apply negb_false_iff in Z. }
                     assert (o' = o) by (now apply (pc_one_old _ _ Pc n t)). subst o'. assert (c' = c) by (apply one_u; congruence). congruence.
                 --- assert (Ha : In c' la) by (apply La; split; [exact Hc'|]; now rewrite has_column_names).
                     pose proof (Q1 c' Ha Pkc' _ Z0) as Z. discriminate.
              ** exfalso. apply (Nr (c_name o)); [|reflexivity]. apply Lr. split; [now exists o|]. now rewrite has_column_names.
           ++ exists c. split; [now apply La|exact Z].
        -- intros (c & Hc & Pkc & ->). split; [|now apply Lnot].
           destruct (in_dec string_dec (c_name c) (map c_name (t_cols t))) as [Hi|Hi].
           ++ apply in_map_iff in Hi as (o & E & Ho). left. apply T3. exists o. split; [exact Ho|]. cbn. split; [|now rewrite E].
              destruct (Both o c Ho Hc E) as [Hl|Sm]; [|now rewrite (sc_pk _ _ Sm)].
              pose proof (Np _ Hl) as Z. cbn [fst snd] in Z. unfold promotes in Z. rewrite Pkc, andb_true_r in Z. now apply negb_false_iff in Z.
           ++ right. exists c. split; [|auto]. apply La. split; [exact Hc|]. now rewrite has_column_names.
    + destruct (in_dec string_dec (cons_col x) (map (fun p => cat (c_name (fst p))) lc)) as [Hi|Hi].
      * apply in_map_iff in Hi as ([o c] & E & Hl). pose proof (proj1 (Lc o c) Hl) as (A & B & E' & Ns). cbn [fst] in E. rewrite (K3 _ x Hl Px) by (cbn [fst]; congruence). cbn [snd]. split.
        -- intros Z. eauto.
        -- intros (c' & Hc' & Z). assert (c' = c); [|now subst]. apply one_u; auto. apply (nc_columns _ _ _ _ Nc n); auto. pose proof (wants_at _ _ Z). congruence.
      * assert (Nl : forall p, In p lc -> cons_col x <> cat (c_name (fst p))).
        { intros p Hp' E. apply Hi. rewrite E. apply (in_map (fun p => cat (c_name (fst p))) _ _ Hp'). }
        rewrite (L3 x Px Nl), K2, K1. split.
        -- intros [[Z|(c & Hc & Z)] Nr]; [|exists c; split; [now apply La|exact Z]].
           apply T3 in Z as (o & Ho & Z). pose proof (wants_at _ _ Z) as Zc.
           destruct (in_dec string_dec (c_name o) (map c_name (t_cols u))) as [Hj|Hj].
           ++ apply in_map_iff in Hj as (c & E & Hc). symmetry in E. destruct (Both o c Ho Hc E) as [Hl|Sm]; [exfalso; now apply (Nl _ Hl)|].
              exists c. split; [exact Hc|]. now apply (same_pg_wants o).
           ++ exfalso. apply (Nr (c_name o)); [|exact Zc]. apply Lr. split; [now exists o|]. now rewrite has_column_names.
        -- intros (c & Hc & Z). pose proof (wants_at _ _ Z) as Zc. split; [|rewrite Zc; now apply Lnot].
           destruct (in_dec string_dec (c_name c) (map c_name (t_cols t))) as [Hj|Hj].
           ++ apply in_map_iff in Hj as (o & E & Ho). left. apply T3. exists o. split; [exact Ho|].
              destruct (Both o c Ho Hc E) as [Hl|Sm]; [exfalso; apply (Nl _ Hl); cbn [fst]; congruence|]. apply (same_pg_wants c); [now apply same_column_sym|exact Z].
           ++ right. exists c. split; [|exact Z]. apply La. split; [exact Hc|]. now rewrite has_column_names.
  - intros o c A B E. destruct (Both o c A B E) as [Hl|Sm].
    + destruct (D3 _ Hl) as (k & k' & Y1 & Y2 & _ & Y3). cbn [fst snd] in *. rewrite (Ku o c) in Y1 by assumption. exists k, k'. split; [exact Y1|]. split; [exact Y2|].
      assert (Iff : opt_eqb sqlval_eqb (c_default o) (c_default c) = true <-> same_opt sqlval_same (c_default o) (c_default c)) by (apply opt_eqb_iff, sqlval_eqb_same).
      destruct (opt_eqb sqlval_eqb (c_default o) (c_default c)).
      * split; [auto|]. intros Z. exfalso. apply Z. now apply Iff.
      * split; [intros Z; apply Iff in Z; discriminate|]. intros _. unfold lit_default in Y3. unfold declared_default. destruct (c_default c) as [v|] eqn:Dv; [|exact Y3].
        exists (lit_of show v). split; [exact Y3|]. apply lit_denotes; [exact Hshow|]. apply (proj2 Df n o c v); [|exact Dv]. apply Lc in Hl as (_ & _ & _ & Ns). exists t, u. auto 10.
    + destruct (I1 o A) as (k & Y & _). exists k, k. split; [exact Y|]. split; [|split; [reflexivity|intros Z; exfalso; apply Z, Sm]].
      rewrite P3; [now rewrite (Ku o c)|]. intros [o' c'] Hl Z. pose proof (proj1 (Lc o' c') Hl) as (A' & B' & E' & Ns). cbn [fst] in Z. apply (nc_columns _ _ _ _ Nc n) in Z; auto.
      assert (o = o') by auto. subst o'. assert (c' = c) by (apply one_u; congruence). subst c'. contradiction.
Qed.
End Kept.

(** * All tables *)

Definition op_table (op : Operation) : string :=
  match op with
  | AddTable t | AddTableIfNotExists t | AddTableConstraints t | RemoveTableConstraints t => t_name t
  | RemoveTable n | AddColumn n _ | RemoveColumn n _ | ChangeColumn n _ _ => n
  end.
Lemma fk_about tbl c : Forall (fun x => about x = cat tbl) (rs (pg_fk_ast tbl c)).
Proof. unfold pg_fk_ast. apply Forall_forall. intros x H. rewrite map_map in H. apply in_map_iff in H as (f & <- & _). reflexivity. Qed.
Lemma op_about op : Forall (fun x => about x = cat (op_table op)) (rs (ast op)).
Proof.
  destruct op as [t|t|t|n|n c|n m|n o c|t]; cbn [pg_op_ast op_table].
  - repeat constructor.
  - repeat constructor.
  - apply Forall_forall. intros x H. rewrite map_map in H. apply in_map_iff in H as (c & <- & _). reflexivity.
  - repeat constructor.
  - destruct (column_default c); [|constructor..]. cbn [map]. constructor; [reflexivity|apply fk_about].
  - repeat constructor.
  - unfold pg_change_ast. rewrite !map_app, !Forall_app. split; [|split; [|split; [|split; [|split]]]].
    + destruct (same_type_b o c); repeat constructor.
    + destruct (Bool.eqb _ _); repeat constructor.
    + destruct (Bool.eqb _ _); [constructor|]. destruct (c_pk c); repeat constructor.
    + destruct (Bool.eqb _ _); [constructor|]. destruct (c_unique c); repeat constructor.
    + destruct (opt_eqb _ _ _); repeat constructor.
    + destruct (opt_eqb _ _ _); [constructor|]. rewrite map_app, Forall_app. split; [destruct (c_ref o); repeat constructor|apply fk_about].
  - induction (t_cols t) as [|c l IH]; [constructor|]. cbn [flat_map]. rewrite map_app, Forall_app. split; [apply fk_about|exact IH].
Qed.
Lemma ops_about n ops : (forall op, In op ops -> op_table op = n) -> Forall (fun x => about x = cat n) (rs (flat_map ast ops)).
Proof.
  induction ops as [|op ops IH]; intros H; [constructor|]. cbn [flat_map]. rewrite map_app, Forall_app. split; [|apply IH; intros x Hx; apply H; now right].
  rewrite <- (H op (or_introl eq_refl)). apply op_about.
Qed.

Lemma segment (f : string -> list Operation) (Pre : string -> option ptab -> Prop) (R : string -> option ptab -> option ptab -> Prop) ns :
  (forall n, In n ns -> table_named n) -> NoDup ns ->
  (forall n op, In n ns -> In op (f n) -> op_table op = n) ->
  (forall n db db', In n ns -> good db -> Pre n (mget (cat n) db) -> run db (rs (flat_map ast (f n))) = Some db' ->
     good db' /\ R n (mget (cat n) db) (mget (cat n) db')) ->
  forall db db', good db -> (forall n, In n ns -> Pre n (mget (cat n) db)) -> run db (rs (flat_map (fun n => flat_map ast (f n)) ns)) = Some db' ->
    good db' /\ (forall m, (forall n, In n ns -> cat n <> m) -> mget m db' = mget m db)
    /\ (forall n, In n ns -> R n (mget (cat n) db) (mget (cat n) db')).
Proof.
  intros Hn ND Ha Hs. induction ns as [|n ns IH]; intros db db' G P H; cbn [flat_map] in H.
  - apply run_nil in H. subst. split; [exact G|]. split; [reflexivity|intros ? []].
  - apply run_app in H as (db1 & H1 & H2). inversion ND as [|? ? N1 N2]; subst.
    destruct (Hs n db db1 (or_introl eq_refl) G (P n (or_introl eq_refl)) H1) as [G1 R1].
    assert (T : touches (cat n) db db1).
    { apply (prun_frame pick allows (cat n) (rs (flat_map ast (f n)))); [|apply G|exact H1]. apply ops_about. intros op. apply Ha. now left. }
    assert (Ne : forall m, In m ns -> cat m <> cat n).
    { intros m Hm E. apply (nc_tables _ _ _ _ Nc) in E; [subst; contradiction|apply Hn; now right|apply Hn; now left]. }
    destruct (IH (fun m Hm => Hn m (or_intror Hm)) N2 (fun m op Hm => Ha m op (or_intror Hm)) (fun m d d' Hm => Hs m d d' (or_intror Hm)) db1 db' G1) as (G' & O' & R'); [|exact H2|].
    { intros m Hm. rewrite (proj2 T) by now apply Ne. apply P. now right. }
    split; [exact G'|]. split.
    + intros m Hm. rewrite O' by (intros k Hk; apply Hm; now right). apply (proj2 T). intros ->. now apply (Hm n (or_introl eq_refl)).
    + intros m [<-|Hm].
      * rewrite O'; [exact R1|]. intros m Hm. now apply Ne.
      * rewrite <- (proj2 T (cat m)) by now apply Ne. now apply R'.
Qed.

Notation N := (mkeys (a_tables new)).
Notation O := (mkeys (a_tables old)).
Lemma In_diff_new n : In n (sdiff N O) <-> has_table new n /\ ~ has_table old n.
Proof. rewrite sdiff_In, !has_table_keys. reflexivity. Qed.
Lemma In_diff_old n : In n (sdiff O N) <-> has_table old n /\ ~ has_table new n.
Proof. rewrite sdiff_In, !has_table_keys. reflexivity. Qed.
Lemma In_both n : In n (sinter N O) <-> has_table old n /\ has_table new n.
Proof. rewrite sinter_In, !has_table_keys. tauto. Qed.
Lemma nodup_N : NoDup N.
Proof. apply sorted_NoDup, (proj1 Wn). Qed.
Lemma nodup_O : NoDup O.
Proof. apply sorted_NoDup, (proj1 Wo). Qed.
Lemma gt_In d n : wf_schema d -> has_table d n -> In (n, gt d n) (a_tables d).
Proof. intros W H. apply In_gt; auto. Qed.

(** The tables that are created were not there. *)
Lemma created_absent ns : forall db db', (forall n, In n ns -> has_table new n) -> NoDup ns -> msorted db ->
  run db (rs (flat_map (fun n => flat_map ast [AddTable (gt new n)]) ns)) = Some db' -> forall n, In n ns -> mget (cat n) db = None.
Proof.
  induction ns as [|n ns IH]; intros db db' Hn ND S H m Hm; [destruct Hm|]. cbn [flat_map] in H. apply run_app in H as (db1 & H1 & H2).
  inversion ND as [|? ? N1 N2]; subst. pose proof (gt_name new n Wn (Hn n (or_introl eq_refl))) as En.
  destruct Hm as [<-|Hm].
  - rewrite app_nil_r in H1. cbn [pg_op_ast map respell] in H1. rewrite En in H1. apply run_cons in H1 as (db2 & H1 & _). cbn [pexec0] in H1. unfold pcreate in H1.
    change (spelled kw lower n) with (cat n) in H1. destruct (mget (cat n) db); [discriminate|reflexivity].
  - assert (T : touches (cat n) db db1).
    { apply (prun_frame pick allows (cat n) (rs (flat_map ast [AddTable (gt new n)]))); [|exact S|exact H1]. apply ops_about. intros op [<-|[]]. exact En. }
    rewrite <- (proj2 T).
    + apply (IH db1 db'); auto; [intros k Hk; apply Hn; now right|apply T].
    + intros E. apply (nc_tables _ _ _ _ Nc) in E; [now subst|right; apply Hn; now right|right; apply Hn; now left].
Qed.
Lemma table_is_ok n t b : (In (n, t) (a_tables old) \/ In (n, t) (a_tables new)) -> pg_table_is kw t b ->
  (forall m x, In (m, x) (p_cons b) -> m = usual_name (cat n) x) -> tab_ok n b.
Proof.
  intros Hn (ND & T1 & T2 & T3) U. constructor; [exact ND|exact U| |].
  - intros x Hx. apply T3 in Hx as (c & Hc & W). exists (c_name c). split; [exists t; split; [exact Hn|now exists c]|now apply wants_at].
  - intros x Hx. apply T3 in Hx as (c & Hc & W). rewrite (wants_at _ _ W). destruct (T1 c Hc) as (k & Hk & D). rewrite <- (proj1 D). rewrite (In_pcol_at _ _ ND Hk). discriminate.
Qed.

(** A new table before its references are declared. *)
Definition created (u : ATable) (b : ptab) : Prop :=
  (forall k, In k (p_cols b) <-> exists c, In c (t_cols u) /\ k = pcol_of (respell_col kw lower (pg_coldef c)))
  /\ forall x, has_cons b x <-> exists c, In c (t_cols u) /\ In x (own_of kw c).
Lemma created_complete u b b' : pg_table_fine u -> NoDup (map p_name (p_cols b')) -> created u b -> p_cols b' = p_cols b ->
  (forall x, has_cons b' x <-> has_cons b x \/ exists c f, In c (t_cols u) /\ x = PRef f /\ pg_refers kw c f) -> pg_table_is kw u b'.
Proof.
  intros (_ & _ & F) ND [C1 C2] E K. rewrite Forall_forall in F. split; [exact ND|]. rewrite E. split; [|split].
  - intros c Hc. eexists. split; [apply C1; eauto|]. now apply declared_plain, F.
  - intros k Hk. apply C1 in Hk as (c & Hc & ->). exists c. split; [exact Hc|]. now apply declared_plain, F.
  - change (forall x, has_cons b' x <-> exists c, In c (t_cols u) /\ wants kw c x). intros x. rewrite K, C2. split.
    + intros [(c & Hc & Z)|(c & f & Hc & Z)]; exists c; (split; [exact Hc|]); apply wants_split; eauto.
    + intros (c & Hc & Z). apply wants_split in Z as [Z|(f & Z)]; [left|right]; eauto.
Qed.

Theorem pg_run_migrates db : run db0 (rs (flat_map ast (d_all old new))) = Some db -> pg_migrated kw read old new db0 db /\ msorted db.
Proof.
  intros H. unfold d_all in H. rewrite !flat_map_app in H. apply run_app in H as (db1 & H1 & H). apply run_app in H as (db2 & H2 & H).
  apply run_app in H as (db3 & H3 & H). apply run_app in H as (db4 & H4 & H5).
  unfold d_adds in H1. unfold d_uncon in H2. unfold d_drops in H3. unfold d_changes in H4. unfold d_cons in H5.
  rewrite flat_map_map in H1, H2, H3. rewrite flat_map_concat in H4, H5.
  rewrite (flat_map_ext _ (fun n => flat_map ast [AddTable (gt new n)])) in H1 by (intros; cbn [flat_map]; now rewrite app_nil_r).
  rewrite (flat_map_ext _ (fun n => flat_map ast [RemoveTableConstraints (gt old n)])) in H2 by (intros; cbn [flat_map]; now rewrite app_nil_r).
  rewrite (flat_map_ext _ (fun n => flat_map ast [RemoveTable n])) in H3 by (intros; cbn [flat_map]; now rewrite app_nil_r).
  assert (NDn : NoDup (sdiff N O)) by apply NoDup_filter, nodup_N.
  assert (NDo : NoDup (sdiff O N)) by apply NoDup_filter, nodup_O.
  assert (NDb : NoDup (sinter N O)) by apply NoDup_filter, nodup_N.
  assert (Abs : forall n, In n (sdiff N O) -> mget (cat n) db0 = None).
  { apply (created_absent (sdiff N O) db0 db1); auto. intros n Hn. now apply In_diff_new in Hn. }
  assert (G0 : good db0).
  { constructor; [exact S0| |reflexivity]. intros n b Hn Gb. destruct (in_dec string_dec n O) as [Hi|Hi].
    - apply has_table_keys in Hi. pose proof (gt_In old n Wo Hi) as A. destruct (H0 n _ A) as (b' & Gb' & T & U). assert (b' = b) by congruence. subst.
      apply (table_is_ok n (gt old n)); auto.
    - exfalso. rewrite Abs in Gb; [discriminate|]. apply In_diff_new. rewrite <- has_table_keys in Hi. split; [|exact Hi]. destruct Hn as [Hn|Hn]; [contradiction|exact Hn]. }
  assert (Dist : forall n m, table_named n -> table_named m -> n <> m -> cat n <> cat m).
  { intros n m Hn Hm Ne E. apply Ne. now apply (nc_tables _ _ _ _ Nc). }
  (* new tables *)
  destruct (segment (fun n => [AddTable (gt new n)]) (fun _ _ => True)
    (fun n _ o => exists b, o = Some b /\ created (gt new n) b) (sdiff N O)) with (db := db0) (db' := db1) as (G1 & O1 & R1); auto.
  { intros n Hn. right. now apply In_diff_new in Hn. }
  { intros n op Hn [<-|[]]. apply In_diff_new in Hn as [Hn _]. now apply gt_name. }
  { intros n d d' Hn Gd _ Hr. apply In_diff_new in Hn as [Hn _]. cbn [flat_map] in Hr. rewrite app_nil_r in Hr.
    pose proof (gt_In new n Wn Hn) as A.
    destruct (create_op pick allows Hp kw show old new db0 Nc n (gt new n) d d' Gd) as (b' & Gb' & Gd' & C1 & C2); auto.
    - now apply gt_name.
    - now right.
    - now apply (Fn n).
    - intros c Hc. exists (gt new n). split; [now right|now exists c].
    - split; [exact Gd'|]. exists b'. split; [exact Gb'|]. now split. }
  (* removed tables *)
  destruct (segment (fun n => [RemoveTableConstraints (gt old n)]) (fun n o => exists b, o = Some b)
    (fun n _ o => exists b, o = Some b) (sdiff O N)) with (db := db1) (db' := db2) as (G2 & O2 & R2); auto.
  { intros n Hn. left. now apply In_diff_old in Hn. }
  { intros n op Hn [<-|[]]. apply In_diff_old in Hn as [Hn _]. now apply gt_name. }
  { intros n d d' Hn Gd [b Gb] Hr. apply In_diff_old in Hn as [Hn Nn]. cbn [flat_map] in Hr. rewrite app_nil_r in Hr.
    pose proof (gt_In old n Wo Hn) as A. pose proof (gt_name old n Wo Hn) as En. cbn [pg_op_ast] in Hr. rewrite En in Hr.
    apply (drops_op pick allows kw old new db0 Nc n (with_ref_cols (gt old n)) d d' b); auto; [now left|].
    intros c Hc. unfold with_ref_cols in Hc. apply filter_In in Hc as [Hc Rc]. apply (nc_plain _ _ _ _ Nc). exists (gt old n), c.
    split; [exact A|]. split; [exact Hc|]. split; [reflexivity|]. left. split; [|exact Nn]. now destruct (c_ref c). }
  { intros n Hn. apply In_diff_old in Hn as [Hn Nn]. destruct (H0 n _ (gt_In old n Wo Hn)) as (b & Gb & _). exists b. rewrite O1; [exact Gb|].
    intros m Hm. apply In_diff_new in Hm as [Hm Nm]. apply Dist; [now right|now left|]. intros ->. contradiction. }
  destruct (segment (fun n => [RemoveTable n]) (fun n o => True) (fun n _ o => o = None) (sdiff O N)) with (db := db2) (db' := db3) as (G3 & O3 & R3); auto.
  { intros n Hn. left. now apply In_diff_old in Hn. }
  { now intros n op Hn [<-|[]]. }
  { intros n d d' Hn Gd _ Hr. apply In_diff_old in Hn as [Hn Nn]. cbn [flat_map] in Hr. rewrite app_nil_r in Hr.
    apply (droptable_op pick allows kw show old new db0 Nc n d d'); auto. now left. }
  (* kept tables *)
  destruct (segment (table_ops old new) (fun n o => exists b, o = Some b /\ pg_table_is kw (gt old n) b)
    (fun n o o' => exists b b', o = Some b /\ o' = Some b' /\ kept (gt old n) (gt new n) b b') (sinter N O)) with (db := db3) (db' := db4) as (G4 & O4 & R4); auto.
  { intros n Hn. left. now apply In_both in Hn. }
  { intros n op Hn Hop. apply In_both in Hn as [Ho Hn]. pose proof (gt_name old n Wo Ho) as E1. pose proof (gt_name new n Wn Hn) as E2.
    unfold table_ops in Hop. destruct (kept_lists n (gt old n) (gt new n) (gt_In old n Wo Ho) (gt_In new n Wn Hn)) as (la & lr & lc & Ea & Er & Ec & _).
    rewrite Ea, Er, Ec in Hop. rewrite !in_app_iff, !in_map_iff in Hop. destruct Hop as [(x & <- & _)|[(x & <- & _)|(x & <- & _)]]; reflexivity. }
  { intros n d d' Hn Gd (b & Gb & T) Hr. apply In_both in Hn as [Ho Hn].
    destruct (kept_table n (gt old n) (gt new n) (gt_In old n Wo Ho) (gt_In new n Wn Hn) d d' b Gd Gb T Hr) as (Gd' & b' & Gb' & K).
    split; [exact Gd'|]. exists b, b'. auto. }
  { intros n Hn. apply In_both in Hn as [Ho Hn]. destruct (H0 n _ (gt_In old n Wo Ho)) as (b & Gb & T & _). exists b. split; [|exact T]. rewrite O3, O2, O1; [exact Gb| | |].
    - intros m Hm. apply In_diff_new in Hm as [Hm Nm]. apply Dist; [now right|now left|]. intros ->. contradiction.
    - intros m Hm. apply In_diff_old in Hm as [Hm Nm]. apply Dist; [now left|now left|]. intros ->. contradiction.
    - intros m Hm. apply In_diff_old in Hm as [Hm Nm]. apply Dist; [now left|now left|]. intros ->. contradiction. }
  (* references of new tables *)
  destruct (segment (con_of new) (fun n o => exists b, o = Some b /\ created (gt new n) b)
    (fun n _ o' => exists b', o' = Some b' /\ pg_table_is kw (gt new n) b') (sdiff N O)) with (db := db4) (db' := db) as (G5 & O5 & R5); auto.
  { intros n Hn. right. now apply In_diff_new in Hn. }
  { intros n op Hn Hop. apply In_diff_new in Hn as [Hn _]. unfold con_of in Hop. destruct (has_ref (gt new n)); [destruct Hop as [<-|[]]|destruct Hop]. now apply gt_name. }
  { intros n d d' Hn Gd (b & Gb & C) Hr. apply In_diff_new in Hn as [Hn Nn]. pose proof (gt_In new n Wn Hn) as A. pose proof (gt_name new n Wn Hn) as En.
    unfold con_of in Hr. destruct (has_ref (gt new n)) eqn:Hrf.
    - cbn [flat_map pg_op_ast] in Hr. rewrite app_nil_r, En in Hr.
      destruct (refs_op pick allows Hp kw old new db0 Nc n (t_cols (gt new n)) d d' b Gd) as (b' & Gb' & Gd' & E & K); auto.
      + apply (Fn n _ A).
      + intros c Hc. exists (gt new n). split; [now right|now exists c].
      + apply (proj2 Wn n _ A).
      + intros f c Hc _ Z. apply (proj2 C) in Z as (c' & _ & Z). apply own_In in Z. exact Z.
      + split; [exact Gd'|]. exists b'. split; [exact Gb'|]. apply (created_complete _ b); auto; [now apply (Fn n)|].
        apply (o_nodup _ _ _ _ _ (g_tab _ _ _ _ _ Gd' n b' (or_intror Hn) Gb')).
    - apply run_nil in Hr. subst d'. split; [exact Gd|]. exists b. split; [exact Gb|]. apply (created_complete _ b); auto; [now apply (Fn n)| |].
      + apply (o_nodup _ _ _ _ _ (g_tab _ _ _ _ _ Gd n b (or_intror Hn) Gb)).
      + intros x. split; [now left|]. intros [Z|(c & f & Hc & _ & (r & Er & _))]; [exact Z|]. exfalso.
        assert (Z : has_ref (gt new n) = true) by (apply existsb_exists; exists c; rewrite Er; auto). congruence. }
  { intros n Hn. destruct (R1 n Hn) as (b & Gb & C). exists b. split; [|exact C]. apply In_diff_new in Hn as [Hn Nn]. rewrite O4, O3, O2; [exact Gb| | |].
    - intros m Hm. apply In_diff_old in Hm as [Hm Nm]. apply Dist; [now left|now right|]. intros ->. contradiction.
    - intros m Hm. apply In_diff_old in Hm as [Hm Nm]. apply Dist; [now left|now right|]. intros ->. contradiction.
    - intros m Hm. apply In_both in Hm as [Hm _]. apply Dist; [now left|now right|]. intros ->. contradiction. }
  assert (Keep : forall n t u, In (n, t) (a_tables old) -> In (n, u) (a_tables new) ->
    exists b b', mget (cat n) db0 = Some b /\ mget (cat n) db = Some b' /\ kept t u b b').
  { intros n t u A B. apply In_gt in A as [Ho ->]; [|exact Wo]. apply In_gt in B as [Hn ->]; [|exact Wn].
    destruct (R4 n) as (b & b' & Gb & Gb' & K); [now apply In_both|]. exists b, b'. split; [|split; [|exact K]].
    - rewrite O3, O2, O1 in Gb; [exact Gb| | |].
      + intros m Hm. apply In_diff_new in Hm as [Hm Nm]. apply Dist; [now right|now left|]. intros ->. contradiction.
      + intros m Hm. apply In_diff_old in Hm as [Hm Nm]. apply Dist; [now left|now left|]. intros ->. contradiction.
      + intros m Hm. apply In_diff_old in Hm as [Hm Nm]. apply Dist; [now left|now left|]. intros ->. contradiction.
    - rewrite O5; [exact Gb'|]. intros m Hm. apply In_diff_new in Hm as [Hm Nm]. apply Dist; [now right|now left|]. intros ->. contradiction. }
  split; [|apply G5]. split; [|split; [|split]].
  - intros n u B. assert (Z : exists b, mget (cat n) db = Some b /\ pg_table_is kw u b).
    { destruct (in_dec string_dec n O) as [Hi|Hi]; rewrite <- has_table_keys in Hi.
      - destruct Hi as [t A]. destruct (Keep n t u A B) as (b & b' & _ & Gb' & K). exists b'. split; [exact Gb'|apply K].
      - apply In_gt in B as [Hn ->]; [|exact Wn]. apply R5. now apply In_diff_new. }
    destruct Z as (b & Gb & T). exists b. split; [exact Gb|]. split; [exact T|].
    apply (o_usual _ _ _ _ _ (g_tab _ _ _ _ _ G5 n b (or_intror (ex_intro _ u B)) Gb)).
  - intros n Ho Nn. rewrite O5, O4.
    + apply R3. now apply In_diff_old.
    + intros m Hm. apply In_both in Hm as [_ Hm]. apply Dist; [now right|now left|]. intros ->. contradiction.
    + intros m Hm. apply In_diff_new in Hm as [Hm Nm]. apply Dist; [now right|now left|]. intros ->. contradiction.
  - apply G5.
  - intros n t u c c' A B Hc Hc' E. destruct (Keep n t u A B) as (b & b' & Gb & Gb' & K).
    destruct (proj2 K c c' Hc Hc' E) as (k & k' & Y). exists b, b', k, k'. split; [exact Gb|]. split; [exact Gb'|exact Y].
Qed.

(** Every statement of the script can be written. *)
Lemma pg_ops_fine : Forall (pg_op_fine old) (d_all old new).
Proof.
  apply Forall_forall. intros op Hop. apply diff_In in Hop; [|assumption..].
  assert (Cf : forall (d : ADB) n t c, pg_schema_fine d -> In (n, t) (a_tables d) -> In c (t_cols t) -> pg_column_fine c).
  { intros d n t c F A Hc. destruct (F n t A) as (_ & _ & Fc). rewrite Forall_forall in Fc. now apply Fc. }
  assert (Nf : forall (d : ADB) n t, wf_schema d -> pg_schema_fine d -> In (n, t) (a_tables d) -> identifier n = true).
  { intros d n t W F A. destruct (F n t A) as (I & _). rewrite (proj1 (proj2 W n t A)) in I. exact I. }
  destruct op as [t|t|t|n|n c|n m|n o c|t]; cbn [op_justified pg_op_fine] in *.
  - now apply (Fn (t_name t)).
  - destruct Hop.
  - split; [now apply (Fo (t_name t))|]. now apply (proj2 Wo (t_name t)).
  - destruct Hop as [[t A] _]. now apply (Nf old n t).
  - split; [|split].
    + destruct Hop as (t & u & A & _). now apply (Nf old n t).
    + destruct Hop as (t & u & _ & B & Hc & _). now apply (Cf new n u).
    + now apply (proj1 Df n).
  - destruct Hop as (t & u & A & B & (c & Hc & <-) & _). split; [now apply (Nf old n t)|]. apply (Cf old n t c Fo A Hc).
  - destruct Hop as (t & u & A & B & Ho & Hc & E & Ns). split; [now apply (Nf old n t)|]. split; [now apply (Cf old n t)|]. split; [now apply (Cf new n u)|].
    split; [exact E|]. split.
    + intros v Dv. apply (proj2 Df n o c v); [|exact Dv]. exists t, u. auto 10.
    + exists t. split; [apply In_mget; [apply Wo|exact A]|]. apply (proj2 Wo n t A).
  - now apply (Fn (t_name t)).
Qed.
End Main.
