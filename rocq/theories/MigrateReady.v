(** A script runs on every database that is ready for it. *)
From Verif Require Import Base SqlVal Sql Query QuerySpec Adb AdbSpec AdbProofs Literal LiteralSpec
  Ddl DdlProofs DdlSpec SqliteDdl SqliteDdlProofs DdlFine Backend BackendSpec SqliteSem MigrateSpec MigrateProofs MigrateInv MigrateMain.

Lemma NoDup_distinct l : NoDup l -> distinct l = true.
Proof.
  induction 1 as [|x l N ND IH]; [reflexivity|]. cbn. rewrite IH, andb_true_r. apply negb_true_iff.
  destruct (existsb (String.eqb x) l) eqn:E; [|reflexivity]. apply existsb_exists in E as (y & Hy & Ey). apply String.eqb_eq in Ey. now subst.
Qed.
Lemma one_filter {A} (p : A -> bool) (l : list A) : NoDup l -> (forall x y, In x l -> In y l -> p x = true -> p y = true -> x = y) ->
  (List.length (filter p l) <= 1)%nat.
Proof.
  intros ND H. pose proof (NoDup_filter p ND) as NF. destruct (filter p l) as [|x [|y r]] eqn:E; cbn; try lia. exfalso.
  assert (Hx : In x (filter p l)) by (rewrite E; now left). assert (Hy : In y (filter p l)) by (rewrite E; right; now left).
  apply filter_In in Hx as [Hx Px], Hy as [Hy Py]. rewrite (H x y Hx Hy Px Py) in NF. apply NoDup_cons_iff in NF as [N _]. apply N. now left.
Qed.
Lemma NoDup_of_map {A B} (f : A -> B) l : NoDup (map f l) -> NoDup l.
Proof. apply NoDup_map_inv. Qed.
Lemma name_inj cols c c' : NoDup (map c_name cols) -> In c cols -> In c' cols -> c_name c = c_name c' -> c = c'.
Proof. intros ND H H' E. pose proof (In_col_by_name _ _ ND H) as Y. pose proof (In_col_by_name _ _ ND H') as Y'. rewrite E in Y. congruence. Qed.
Lemma type_fine s c k : column_fine c -> declares c k -> type_ok s k = true.
Proof.
  intros F (_ & Dt & _). unfold type_ok. apply orb_true_iff. right. apply existsb_exists. exists [word c]. split.
  - apply word_in in F. cbn in F |- *. repeat (destruct F as [<-|F]; [tauto|]). destruct F.
  - rewrite Dt. destruct (list_eq_dec string_dec [word c] [word c]); [reflexivity|contradiction].
Qed.

Lemma create_runs db n t strict : mget n db = None -> Forall column_fine (t_cols t) -> NoDup (map c_name (t_cols t)) -> one_key t ->
  exists db', create db false n (map coldef_of (t_cols t)) (flat_map fk_of (t_cols t)) strict = Some db'.
Proof.
  intros G F ND K. unfold create. rewrite G. cbn [is_some]. rewrite (map_map coldef_of ecol_of). change (map (fun x => ecol_of (coldef_of x)) (t_cols t)) with (map kcol (t_cols t)). cbv zeta.
  assert (E1 : distinct (map k_name (map kcol (t_cols t))) = true) by (apply NoDup_distinct; rewrite map_map; exact ND).
  assert (E2 : forallb (type_ok strict) (map kcol (t_cols t)) = true).
  { apply forallb_forall. intros k Hk. apply in_map_iff in Hk as (c & <- & Hc). rewrite Forall_forall in F. apply (type_fine _ c); [now apply F|].
    now apply kcol_declares, F. }
  assert (E3 : (List.length (filter k_pk (map kcol (t_cols t))) <=? 1)%nat = true).
  { apply Nat.leb_le. apply one_filter.
    - apply (NoDup_of_map k_name). rewrite map_map. exact ND.
    - intros x y Hx Hy Px Py. apply in_map_iff in Hx as (c & <- & Hc). apply in_map_iff in Hy as (c' & <- & Hc'). f_equal.
      rewrite Forall_forall in F. apply (name_inj (t_cols t)); [exact ND|exact Hc|exact Hc'|].
      apply K; [exact Hc|exact Hc'| |]; [rewrite <- Px|rewrite <- Py]; symmetry; apply kcol_declares; now apply F. }
  assert (E4 : forallb (fun f => existsb (String.eqb (fk_col f)) (map k_name (map kcol (t_cols t)))) (flat_map fk_of (t_cols t)) = true).
  { apply forallb_forall. intros f Hf. apply in_flat_map in Hf as (c & Hc & Hf). apply fk_of_In in Hf as (r & _ & ->). cbn.
    apply existsb_exists. exists (c_name c). split; [|apply String.eqb_refl]. rewrite map_map. now apply (in_map c_name). }
  rewrite E1, E2, E3, E4. cbn. eauto.
Qed.

Section Ready.
Variable conv : bool -> list string -> lvalue -> option lvalue.
Variable veq : lvalue -> lvalue -> bool.
Variable read : bool -> string -> f64.
Variable show : f64 -> string.
Variable strict : bool.
Hypothesis Hs : storage_ok conv strict read.
Hypothesis Hshow : display_ok read show.

Lemma add_runs db n t c v b : mget n db = Some b -> table_is strict t b -> ~ has_column t (c_name c) ->
  column_fine c -> column_default c = Ok v -> readable_literal v -> default_exact c ->
  c_pk c = false -> c_unique c = false -> (c_nullable c = false -> v <> VNull) ->
  exists db', add_col conv read db n (with_default (coldef_of c) (lit_of show v)) = Some db'.
Proof.
  intros G T Nh F Dv Rv Ex Pk Uq Nn. unfold add_col. rewrite G. cbv zeta.
  pose proof (kcol_default_declares c (lit_of show v) F) as D. pose proof (kcol_default_value c (lit_of show v)) as Ed.
  set (k := ecol_of (with_default (coldef_of c) (lit_of show v))) in *. pose proof (type_fine (b_strict b) c k F D) as Ty.
  destruct D as (Dn & Dt & Dnn & Dpk & Du).
  assert (Ec : col_at b (k_name k) = None).
  { destruct (col_at b (k_name k)) as [x|] eqn:E; [|reflexivity]. apply (col_at_iff b _ x) in E as [Hx E]; [|apply T]. exfalso. apply Nh.
    rewrite <- Dn, <- E. apply (table_names strict t b _ T). now apply in_map. }
  rewrite Ec, Dpk, Du, Pk, Uq, Ty, Ed. cbn [is_some orb negb].
  destruct (default_stored conv read show strict Hs Hshow c v Dv Rv Ex) as (x & w & Lx & Cw & Sw). rewrite Lx.
  destruct (b_rows b); [eauto|]. rewrite (proj1 T), Dt, Cw, Dnn.
  destruct (c_nullable c); [cbn; eauto|]. cbn [negb andb]. destruct (lnull w) eqn:El; [|eauto]. exfalso.
  destruct w; try discriminate El. specialize (Nn eq_refl). destruct v; cbn in Sw; try discriminate Sw; try congruence; contradiction Nn; reflexivity.
Qed.
Lemma drop_col_runs db n t c b : mget n db = Some b -> table_is strict t b -> NoDup (map c_name (t_cols t)) -> In c (t_cols t) -> c_ref c = None ->
  c_pk c = false -> c_unique c = false -> t_cols (remove_column t (c_name c)) <> [] -> exists db', drop_col db n (c_name c) = Some db'.
Proof using.
  intros G T ND Hc Rc Pk Uq Ne. unfold drop_col. rewrite G. pose proof T as (_ & Tn & T1 & T2 & T3). destruct (T1 c Hc) as (k & Hk & D).
  assert (Ec : col_at b (c_name c) = Some k) by (apply col_at_iff; [exact Tn|]; split; [exact Hk|apply D]). rewrite Ec.
  destruct D as (Dn & _ & _ & Dpk & Du). rewrite Dpk, Du, Pk, Uq. cbn [orb].
  assert (Ef : existsb (fun f => String.eqb (fk_col f) (c_name c)) (b_fks b) = false).
  { destruct (existsb (fun f => String.eqb (fk_col f) (c_name c)) (b_fks b)) eqn:E; [|reflexivity]. apply existsb_exists in E as (f & Hf & E).
    apply String.eqb_eq in E. apply T3 in Hf as (d & Hd & r & Er & ->). cbn in E. rewrite (name_inj _ d c ND Hd Hc E) in Er. congruence. }
  rewrite Ef. cbn [orb]. destruct (Nat.leb_spec (List.length (b_cols b)) 1) as [L|L]; [|eauto]. exfalso.
  cbn in Ne. destruct (filter (fun c0 => negb (String.eqb (c_name c0) (c_name c))) (t_cols t)) as [|d l] eqn:E; [congruence|].
  assert (Hd : In d (d :: l)) by now left. rewrite <- E in Hd. apply filter_In in Hd as [Hd Nd]. destruct (T1 d Hd) as (k' & Hk' & D').
  assert (k <> k'). { intros ->. rewrite <- (proj1 D'), Dn, String.eqb_refl in Nd. discriminate. }
  destruct (b_cols b) as [|a [|a' r]]; cbn in L; [destruct Hk| |lia]. destruct Hk as [->|[]], Hk' as [->|[]]. contradiction.
Qed.

Lemma Forall2_In_l {A B} (P : A -> B -> Prop) l l' x : Forall2 P l l' -> In x l -> exists y, In y l' /\ P x y.
Proof using. induction 1 as [|a b l l' p F IH]; intros H; [destruct H|]. destruct H as [->|H]; [exists b; split; [now left|exact p]|].
  destruct (IH H) as (y & Hy & Py). exists y. split; [now right|exact Py]. Qed.
Lemma Forall2_In_r {A B} (P : A -> B -> Prop) l l' y : Forall2 P l l' -> In y l' -> exists x, In x l /\ P x y.
Proof using. induction 1 as [|a b l l' p F IH]; intros H; [destruct H|]. destruct H as [->|H]; [exists a; split; [now left|exact p]|].
  destruct (IH H) as (x & Hx & Px). exists x. split; [now right|exact Px]. Qed.
Lemma store_runs cols r : Forall column_fine cols ->
  (forall c, In c cols -> exists v v', get r (c_name c) = Some v /\ conv strict [word c] v = Some v' /\ (c_nullable c = false -> v' <> LNull)) ->
  exists vs r', mapm (get r) (map c_name cols) = Some vs /\ store conv strict (map kcol cols) vs = Some r'.
Proof using.
  induction cols as [|c cols IH]; intros F H; [exists [], []; split; reflexivity|]. inversion F as [|? ? Fc F']; subst.
  destruct IH as (vs & r' & M & St); [exact F'|intros d Hd; apply H; now right|]. destruct (H c (or_introl eq_refl)) as (v & v' & Gv & Cv & Nn).
  exists (v :: vs), ((c_name c, v') :: r'). cbn [map mapm store]. rewrite Gv, M. split; [reflexivity|].
  destruct (kcol_declares c Fc) as (Dn & Dt & Dnn & _). rewrite Dt, Dnn, Dn, Cv, St. destruct (c_nullable c); [reflexivity|]. cbn [negb andb].
  destruct v'; try reflexivity. now elim (Nn eq_refl).
Qed.
Lemma mapm_runs {A B} (f : A -> option B) l : (forall x, In x l -> exists y, f x = Some y) -> exists l', mapm f l = Some l'.
Proof using.
  induction l as [|x l IH]; intros H; [exists []; reflexivity|]. destruct (H x (or_introl eq_refl)) as (y & E).
  destruct IH as (l' & E'); [intros z Hz; apply H; now right|]. exists (y :: l'). cbn. now rewrite E, E'.
Qed.
Lemma values_are cols rows rs c vs : Forall2 (copied conv strict cols) rows rs -> In c cols ->
  Forall2 (fun r v' => exists v, get r (c_name c) = Some v /\ conv strict [word c] v = Some v') rows vs -> column_values (c_name c) rs = vs.
Proof using.
  intros F Hc. revert vs. induction F as [|r r' rows rs Cp F IH]; intros vs V; inversion V as [|? v' ? vs' (v & Gv & Cv) V']; subst; [reflexivity|].
  unfold column_values. cbn [flat_map]. fold (column_values (c_name c) rs). rewrite (IH _ V'). destruct (proj2 Cp c Hc) as (v1 & v2 & X1 & X2 & X3 & _).
  rewrite X2. cbn. f_equal. congruence.
Qed.

Lemma rebuild_runs db n t t' b :
  msorted db -> mget n db = Some b -> table_is strict t b -> mget (tmp_table_name n) db = None ->
  t_name t = n -> t_name t' = tmp_table_name n -> Forall column_fine (t_cols t') -> NoDup (map c_name (t_cols t')) -> one_key t' ->
  (forall c, In c (t_cols t') -> has_column t (c_name c)) ->
  (forall c, In c (t_cols t') -> fits conv veq strict db b c) ->
  (forall c f, In c (t_cols t') -> refers c f -> parent_ok db f = true) ->
  (forall c f, In c (t_cols t') -> refers c f -> fk_table f <> tmp_table_name n) ->
  (forall c f r v v', In c (t_cols t') -> refers c f -> fk_table f = n -> In r (b_rows b) -> get r (c_name c) = Some v -> conv strict [word c] v = Some v' -> v' = LNull) ->
  (forall m bm f r v, mget m db = Some bm -> m <> n -> In f (b_fks bm) -> fk_table f = n -> In r (b_rows bm) -> get r (fk_col f) = Some v -> v = LNull) ->
  exists db', run conv veq read db (rebuild_ast strict t t') = Some db'.
Proof using.
  intros Sd G T G0 En En' F ND K Sub Ft Pa Rf Nn Nf. unfold rebuild_ast. rewrite En, En'. cbn [run exec create_ast]. rewrite En'.
  destruct (create_runs db (tmp_table_name n) t' strict G0 F ND K) as (db1 & E1). rewrite E1.
  destruct (create_gives strict _ _ _ _ F E1) as (_ & _ & b1 & -> & T1 & Rw1 & Cs1 & St1 & Fk1).
  assert (Ne : n <> tmp_table_name n) by (intros X; rewrite <- X in G0; congruence).
  assert (Fks : forall f, In f (b_fks b1) -> exists c, In c (t_cols t') /\ refers c f).
  { intros f Hf. rewrite Fk1 in Hf. apply in_flat_map in Hf as (c & Hc & Hf). exists c. split; [exact Hc|]. now apply fk_of_In. }
  unfold copy. rewrite mget_mput_eq, (mget_mput _ _ _ _ Sd). destruct (keqb_spec n (tmp_table_name n)) as [X|_]; [contradiction|]. rewrite G.
  assert (A1 : forallb (fun c => is_some (col_at b c)) (map c_name (t_cols t')) = true).
  { apply forallb_forall. intros x Hx. apply in_map_iff in Hx as (c & <- & Hc). pose proof (Sub c Hc) as H. apply (table_names strict t b _ T) in H.
    destruct (col_at b (c_name c)) eqn:E; [reflexivity|]. apply col_at_None in E. contradiction. }
  assert (A2 : forallb (parent_ok (mput (tmp_table_name n) b1 db)) (b_fks b1) = true).
  { apply forallb_forall. intros f Hf. destruct (Fks f Hf) as (c & Hc & Hr). pose proof (Pa c f Hc Hr) as P. unfold parent_ok in *.
    rewrite (mget_mput _ _ _ _ Sd). destruct (keqb_spec (fk_table f) (tmp_table_name n)) as [X|_]; [|exact P]. destruct (Rf c f Hc Hr X). }
  rewrite A1, A2. cbn [andb]. rewrite Rw1, St1, Cs1. cbn [List.app].
  match goal with |- context [mapm ?f (b_rows b)] => destruct (mapm_runs f (b_rows b)) as (rs & E3) end.
  { intros r Hr. destruct (store_runs (t_cols t') r F) as (vs & r' & M & St).
    - intros c Hc. destruct (Ft c Hc) as (ws & H1 & H2 & _). destruct (Forall2_In_l _ _ _ r H1 Hr) as (v' & Hv' & v & Gv & Cv).
      exists v, v'. split; [exact Gv|]. split; [exact Cv|]. intros En0. specialize (H2 En0). rewrite Forall_forall in H2. now apply H2.
    - exists r'. now rewrite M. }
  rewrite E3. set (b2 := with_rows b1 rs).
  assert (Cp : Forall2 (copied conv strict (t_cols t')) (b_rows b) rs).
  { apply mapm_Forall2 in E3. clear - E3 F ND. induction E3 as [|r x l l' H E3 IH]; constructor; [|exact IH].
    destruct (mapm (get r) (map c_name (t_cols t'))) as [vs|] eqn:M; [|discriminate]. apply (store_copied conv strict _ _ F ND vs x M H). }
  assert (B1 : keys_ok veq b2 = true).
  { apply forallb_forall. intros k Hk. cbn in Hk. rewrite Cs1 in Hk. apply in_map_iff in Hk as (c & <- & Hc).
    rewrite Forall_forall in F. destruct (kcol_declares c (F c Hc)) as (Dn & _ & _ & Dpk & Du). rewrite Dpk, Du, Dn.
    destruct (c_pk c || c_unique c) eqn:E; [|reflexivity]. cbn [negb orb]. destruct (Ft c Hc) as (ws & H1 & _ & H3 & _).
    change (b_rows b2) with rs. rewrite (values_are _ _ _ c ws Cp Hc H1). apply H3. now apply orb_true_iff in E. }
  assert (B2 : forallb (fun f => forallb (fk_holds veq (mput (tmp_table_name n) b2 (mput (tmp_table_name n) b1 db)) f) rs) (b_fks b1) = true).
  { apply forallb_forall. intros f Hf. apply forallb_forall. intros r' Hr'. destruct (Fks f Hf) as (c & Hc & Hr). unfold fk_holds.
    pose proof (Rf c f Hc Hr) as Nt. rewrite mput_mput, (mget_mput _ _ _ _ Sd). destruct (keqb_spec (fk_table f) (tmp_table_name n)) as [X|_]; [contradiction|].
    destruct (Ft c Hc) as (ws & H1 & _ & _ & H4). specialize (H4 f Hr).
    destruct (Forall2_In_r _ _ _ r' Cp Hr') as (r & Hrr & Cr). destruct (proj2 Cr c Hc) as (v1 & v2 & X1 & X2 & X3 & _).
    destruct Hr as (rl & _ & ->). cbn [fk_col fk_table fk_ref] in *. rewrite X2.
    destruct (Forall2_In_l _ _ _ r H1 Hrr) as (v' & Hv' & v & Gv & Cv). assert (v' = v2) by congruence. subst v'.
    rewrite Forall_forall in H4. destruct (H4 v2 Hv') as [->|(p & Gp & Hp)]; [reflexivity|]. rewrite Gp, Hp. apply orb_true_r. }
  cbv zeta. rewrite B1, B2. cbn [andb].
  rewrite mput_mput. unfold drop. rewrite (mget_mput _ _ _ _ Sd). destruct (keqb_spec n (tmp_table_name n)) as [X|_]; [contradiction|]. rewrite G.
  assert (C1 : referenced veq (mput (tmp_table_name n) b2 db) n b = false).
  { unfold referenced. destruct (existsb _ (mput (tmp_table_name n) b2 db)) eqn:E; [|reflexivity]. apply existsb_exists in E as ([m x] & Hm & E).
    cbn [fst snd] in E. apply andb_true_iff in E as [Em E]. apply existsb_exists in E as (f & Hf & E). apply andb_true_iff in E as [E Er]. apply String.eqb_eq in E.
    apply existsb_exists in Er as (r & Hr & Er). destruct (get r (fk_col f)) as [v|] eqn:Gv; [|discriminate]. apply andb_true_iff in Er as [Ev _].
    assert (v = LNull); [|subst v; discriminate].
    apply (In_mget _ _ _ (mput_sorted _ _ _ Sd)) in Hm. rewrite (mget_mput _ _ _ _ Sd) in Hm. destruct (keqb_spec m (tmp_table_name n)) as [->|Nm].
    - injection Hm as <-. cbn in Hf, Hr. destruct (Fks f Hf) as (c & Hc & Hrf). destruct (Forall2_In_r _ _ _ r Cp Hr) as (r0 & Hr0 & Cr).
      destruct (proj2 Cr c Hc) as (v1 & v2 & X1 & X2 & X3 & _). assert (v2 = v) by (destruct Hrf as (rl & _ & ->); cbn in Gv; congruence). subst v2.
      apply (Nn c f r0 v1 v Hc Hrf E Hr0 X1 X3).
    - apply (Nf m x f r v Hm); try assumption. intros ->. now rewrite String.eqb_refl in Em. }
  rewrite C1. unfold rename_tab. rewrite mget_mdel, (mget_mput _ _ _ _ Sd), keqb_refl. destruct (keqb_spec (tmp_table_name n) n) as [X|_]; [congruence|].
  rewrite mget_mdel, keqb_refl. cbn [is_some]. eauto.
Qed.

Variables old new : ADB.
Hypothesis Wo : wf_schema old.
Hypothesis Wn : wf_schema new.
Hypothesis Fo : schema_fine old.
Hypothesis Fn : schema_fine new.
Hypothesis Df : forall n c, added_column old new n c -> default_fine c.
Variable db0 : edb.
Hypothesis S0 : msorted db0.
Hypothesis R0 : realises conv strict old db0.
Hypothesis Ex : forall n c, added_column old new n c -> default_exact c.
Hypothesis Un : added_unreferring old new.
Hypothesis Tm : no_temporary new db0.
Hypothesis Rd : ready conv veq strict old new db0.
Notation inv := (inv conv strict old new db0).

Record next (cur : ADB) (db : edb) (rest : list Operation) : Prop := {
  q_inv : inv cur db;
  q_fine : fine_inv old new cur rest;
  q_just : forall op, In op rest -> op_justified old new op;
  q_sorted : StronglySorted op_before rest;
  q_nodup : NoDup rest;
  q_add : forall n c tb, In (AddColumn n c) rest -> get_table cur n = Some tb -> ~ has_column tb (c_name c);
  q_tab : forall t, In (AddTable t) rest -> get_table cur (t_name t) = None;
  q_new : forall n u, In (n, u) (a_tables new) -> ~ has_table old n -> (exists tb, get_table cur n = Some tb) \/ In (AddTable u) rest;
  q_drop : forall n, In (RemoveTable n) rest -> (exists tb, get_table cur n = Some tb)
    /\ forall m b, mget m db = Some b -> mget m db0 = Some b \/ b_rows b = [] }.

(** A key stays a key, and its values stay unless the table is rebuilt. *)
Lemma key_stays cur db rest q k : next cur db rest -> (forall a, ~ In (AddTable a) rest) -> key_of new q k -> (has_table old q -> key_of old q k) ->
  exists b, mget q db = Some b
    /\ (exists x, col_at b k = Some x /\ k_pk x || k_unique x = true)
    /\ (rebuilt old new q \/ forall p v, mget q db0 = Some p -> holds veq p k v = true -> holds veq b k v = true).
Proof using R0 Rd Wn Wo.
  intros N NT (uq & c & B & Hc & <- & Ky) Ko. pose proof (q_inv _ _ _ N) as V.
  assert (Key : forall tb b c2, get_table cur q = Some tb -> mget q db = Some b -> table_is strict tb b -> In c2 (t_cols tb) -> c_name c2 = c_name c ->
            c_pk c2 = true \/ c_unique c2 = true -> exists x, col_at b (c_name c) = Some x /\ k_pk x || k_unique x = true).
  { intros tb b c2 Gt Gb T H2 E2 K2. pose proof T as (_ & Tn & T1 & _). destruct (T1 c2 H2) as (x & Hx & Dn & _ & _ & Dpk & Du). exists x. split.
    - apply col_at_iff; [exact Tn|]. split; [exact Hx|congruence].
    - rewrite Dpk, Du. apply orb_true_iff. exact K2. }
  destruct (get_table old q) as [tq|] eqn:Go.
  - pose proof (proj1 (get_In old q tq Wo) Go) as A.
    destruct (fi_kept _ _ _ _ (q_fine _ _ _ N) q tq uq A B) as (tb & Gt & Kc & _).
    destruct Ko as (tq' & c0 & A' & Hc0 & E0 & Ky0); [now exists tq|]. pose proof (one_table _ _ _ _ Wo A' A). subst tq'.
    assert (Hold : has_column tq (c_name c)) by (now exists c0).
    destruct (Kc c Hc) as [Hin|(c' & Ec' & Hadd)].
    2: { exfalso. destruct (q_just _ _ _ N _ Hadd) as (t' & u' & At' & _ & _ & X). pose proof (one_table _ _ _ _ Wo At' A). subst t'. apply X. now rewrite Ec'. }
    apply in_map_iff in Hin as (c2 & E2 & H2). destruct (v_real _ _ _ _ _ _ _ V q tb Gt) as (b & Gb & T & _).
    exists b. split; [exact Gb|].
    assert (S2 : c2 = c0 \/ c2 = c).
    { destruct (v_cols _ _ _ _ _ _ _ V q tq tb c2 A Gt H2) as [H|(u' & B' & H)].
      - left. apply (name_inj (t_cols tq)); [apply (proj2 Wo q tq A)|exact H|exact Hc0|congruence].
      - right. pose proof (one_table _ _ _ _ Wn B' B). subst u'.
        apply (name_inj (t_cols uq)); [apply (proj2 Wn q uq B)|exact H|exact Hc|congruence]. }
    split.
    + apply (Key tb b c2 Gt Gb T H2 E2). destruct S2; subst c2; assumption.
    + destruct (acol_eqb c0 c) eqn:Eq.
      2: { left. exists tq, uq. split; [exact A|]. split; [exact B|]. left. exists c0, c. split; [exact Hc0|]. split; [exact Hc|]. split; [exact E0|].
           intros S. apply acol_eqb_iff in S. congruence. }
      right. apply acol_eqb_iff in Eq. assert (Ew : word c0 = word c2) by (destruct S2; subst c2; [reflexivity|now apply same_word]).
      intros p v Gp Hp. pose proof (v_rows _ _ _ _ _ _ _ V q tq tb p b A Gt Gp Gb) as F. unfold holds in *.
      apply existsb_exists in Hp as (r & Hr & Hv). destruct (Forall2_In_l _ _ _ r F Hr) as (r' & Hr' & Rel).
      apply existsb_exists. exists r'. split; [exact Hr'|]. destruct (Rel c2 H2) as (v' & Gv' & K1 & _).
      destruct (K1 c0 Hc0) as (w & Gw & Cw); [congruence|]. rewrite E2 in Gv', Gw. rewrite Gw in Hv. rewrite Gv'.
      destruct (R0 q tq A) as (p' & Gp' & _ & Rp). assert (p' = p) by congruence. subst p'. destruct (Rp r Hr) as [_ Rp2].
      destruct (Rp2 c0 w Hc0) as [Y _]; [congruence|]. rewrite Ew in Y. assert (v' = w) by congruence. now subst.
  - assert (No : ~ has_table old q). { intros (t & Ht). apply (get_In old q t Wo) in Ht. congruence. }
    destruct (q_new _ _ _ N q uq B No) as [(tb & Gt)|H]; [|destruct (NT _ H)].
    destruct (v_real _ _ _ _ _ _ _ V q tb Gt) as (b & Gb & T & _). destruct (v_new _ _ _ _ _ _ _ V q tb b No Gt Gb) as [Rw B'].
    pose proof (one_table _ _ _ _ Wn B' B). subst tb.
    exists b. split; [exact Gb|]. split; [apply (Key uq b c Gt Gb T Hc eq_refl Ky)|]. right.
    intros p v Gp. rewrite (rd_free _ _ _ _ _ _ Rd q) in Gp; [discriminate|now exists uq|exact No].
Qed.

(** Whatever refers to a rebuilt table is NULL. *)
Lemma null_stays cur db n m bm f r v : inv cur db -> rebuilt old new n -> mget m db = Some bm -> In f (b_fks bm) -> fk_table f = n -> In r (b_rows bm) ->
  get r (fk_col f) = Some v -> v = LNull.
Proof using Hs R0 Rd Un Wn Wo.
  intros V Rb G Hf E Hr Gv. destruct (get_table cur m) as [tb|] eqn:Gt.
  - destruct (v_real _ _ _ _ _ _ _ V m tb Gt) as (b' & Gb' & T & _). assert (b' = bm) by congruence. subst b'.
    destruct (proj1 (proj2 (proj2 (proj2 (proj2 T))) f) Hf) as (c & Hc & Hrf). pose proof Hrf as (rl & Erl & Ef).
    assert (Ec : fk_col f = c_name c) by now rewrite Ef. rewrite Ec in Gv.
    destruct (get_table old m) as [t|] eqn:Go.
    + apply (get_In old m t Wo) in Go. destruct (R0 m t Go) as (b0 & G0 & T0 & _).
      destruct (Forall2_In_r _ _ _ r (v_rows _ _ _ _ _ _ _ V m t tb b0 bm Go Gt G0 G) Hr) as (r0 & Hr0 & Rel).
      destruct (Rel c Hc) as (v' & Gv' & K1 & _). assert (v' = v) by congruence. subst v'.
      assert (W : forall v0, get r0 (c_name c) = Some v0 -> has_column t (c_name c) -> v0 = LNull).
      { intros v0 Gv0 _. destruct (v_cols _ _ _ _ _ _ _ V m t tb c Go Gt Hc) as [H|(u & B & H)].
        - apply (rd_rebuilt _ _ _ _ _ _ Rd n m b0 f r0 v0 Rb G0); try assumption; [|now rewrite Ec].
          apply (proj2 (proj2 (proj2 (proj2 T0)))). eauto.
        - now apply (rd_rebuilt_new _ _ _ _ _ _ Rd n m t u b0 c f r0 v0 Rb Go B H Hrf E G0). }
      destruct (in_dec string_dec (c_name c) (map c_name (t_cols t))) as [Hin|Hnin].
      * apply has_column_names in Hin. pose proof Hin as (c0 & Hc0 & E0). destruct (K1 c0 Hc0 E0) as (v0 & Gv0 & Cv0). pose proof (W v0 Gv0 Hin). subst v0.
        rewrite (so_null _ _ _ Hs) in Cv0. congruence.
      * exfalso. rewrite <- has_column_names in Hnin. destruct (v_cols _ _ _ _ _ _ _ V m t tb c Go Gt Hc) as [H|(u & B & H)]; [apply Hnin; now exists c|].
        assert (J : added_column old new m c) by (exists t, u; auto). rewrite (Un m c J) in Erl. discriminate.
    + destruct (v_new _ _ _ _ _ _ _ V m tb bm) as [Rw _]; [|exact Gt|exact G|rewrite Rw in Hr; destruct Hr].
      intros (t & Ht). apply (get_In old m t Wo) in Ht. congruence.
  - destruct (get_table old m) as [t|] eqn:Go.
    + rewrite (v_gone _ _ _ _ _ _ _ V m) in G; [discriminate| |exact Gt]. exists t. now apply (get_In old m t Wo).
    + rewrite (v_other _ _ _ _ _ _ _ V m) in G; [|intros (t & Ht); apply (get_In old m t Wo) in Ht; congruence|exact Gt].
      now apply (rd_rebuilt _ _ _ _ _ _ Rd n m bm f r v Rb G).
Qed.

(** The value that a row now has is as good as the one it had. *)
Lemma same_value cur db n t u tb b b0 c : inv cur db -> In (n, t) (a_tables old) -> In (n, u) (a_tables new) -> get_table cur n = Some tb ->
  mget n db = Some b -> mget n db0 = Some b0 -> has_column t (c_name c) -> has_column tb (c_name c) -> In c (t_cols tb) \/ In c (t_cols u) ->
  forall r0 r v0 v', In r0 (b_rows b0) -> In r (b_rows b) -> row_rel conv strict t tb r0 r -> get r0 (c_name c) = Some v0 -> conv strict [word c] v0 = Some v' ->
  exists v1, get r (c_name c) = Some v1 /\ conv strict [word c] v1 = Some v'.
Proof using Hs R0 Wn Wo.
  intros V A B G Gb G0 (c0 & Hc0 & E0) (c1 & Hc1 & E1) Hc r0 r v0 v' Hr0 Hr Rel Gv Cv.
  destruct (Rel c1 Hc1) as (v1 & Gv1 & K1 & _). destruct (K1 c0 Hc0) as (w & Gw & Cw); [congruence|]. rewrite E1 in Gv1, Gw.
  assert (w = v0) by congruence. subst w. exists v1. split; [exact Gv1|].
  assert (Same : c1 = c \/ (In c1 (t_cols t))).
  { destruct Hc as [Hc|Hc].
    - left. apply (name_inj (t_cols tb)); [|exact Hc1|exact Hc|exact E1]. destruct (v_wf _ _ _ _ _ _ _ V) as [_ W]. apply (W n tb (mget_In _ _ _ G)).
    - destruct (v_cols _ _ _ _ _ _ _ V n t tb c1 A G Hc1) as [H|(u' & B' & H)]; [now right|left].
      pose proof (one_table _ _ _ _ Wn B' B). subst u'. apply (name_inj (t_cols u)); [apply (proj2 Wn n u B)|exact H|exact Hc|exact E1]. }
  destruct Same as [->|Hold].
  - assert (v1 = v') by congruence. subst v1. eapply (so_again _ _ _ Hs), Cv.
  - destruct (R0 n t A) as (b0' & G0' & _ & Rb). assert (b0' = b0) by congruence. subst b0'. destruct (Rb r0 Hr0) as [_ R2].
    destruct (R2 c1 v0 Hold) as [Y _]; [congruence|]. assert (v1 = v0) by congruence. now subst.
Qed.

Lemma Forall2_map_r {A B C} (P : A -> C -> Prop) (Q : A -> B -> Prop) (l : list A) (m : list B) (l' : list C) :
  Forall2 P l l' -> Forall2 Q l m -> Forall2 (fun y z => exists x, In x l /\ In y m /\ P x z /\ Q x y) m l'.
Proof using.
  intros F. revert m. induction F as [|x z l l' p F IH]; intros m G; inversion G as [|? y ? m' q G']; subst; constructor.
  - exists x. cbn. auto.
  - eapply Forall2_mono; [|apply IH, G']. intros a c Ha Hc (w & H1 & H2 & H3 & H4). exists w. cbn. auto.
Qed.

Lemma rebuild_ok cur db op rest n t u tb tb' b : next cur db (op :: rest) -> op_stage op = 3 -> rebuilt old new n ->
  In (n, t) (a_tables old) -> In (n, u) (a_tables new) -> get_table cur n = Some tb -> mget n db = Some b ->
  t_name tb = n -> t_name tb' = tmp_table_name n -> Forall column_fine (t_cols tb') -> NoDup (map c_name (t_cols tb')) ->
  (forall c, In c (t_cols tb') -> In c (t_cols tb) \/ (In c (t_cols u) /\ has_column t (c_name c) /\ has_column tb (c_name c))) ->
  exists db', run conv veq read db (rebuild_ast strict tb tb') = Some db'.
Proof using Hs R0 Rd Tm Un Wn Wo.
  intros N St Rb A B G Gb En En' Fc ND Cs. pose proof (q_inv _ _ _ N) as V. destruct (v_real _ _ _ _ _ _ _ V n tb G) as (b' & Gb' & T & R).
  assert (b' = b) by congruence. subst b'. destruct (R0 n t A) as (b0 & G0 & T0 & Rb0). pose proof (v_rows _ _ _ _ _ _ _ V n t tb b0 b A G G0 Gb) as Rows.
  assert (NT : forall a, ~ In (AddTable a) (op :: rest)).
  { intros a [->|H]; [discriminate St|]. destruct (StronglySorted_inv (q_sorted _ _ _ N)) as [_ F]. rewrite Forall_forall in F.
    destruct (F _ H) as [L _]. rewrite St in L. cbn in L. lia. }
  assert (Side : forall c, In c (t_cols tb') -> In c (t_cols t) \/ In c (t_cols u)).
  { intros c Hc. destruct (Cs c Hc) as [H|(H & _)]; [|now right]. destruct (v_cols _ _ _ _ _ _ _ V n t tb c A G H) as [?|(u' & B' & ?)]; [now left|right].
    pose proof (one_table _ _ _ _ Wn B' B). now subst. }
  assert (HasTb : forall c, In c (t_cols tb') -> has_column tb (c_name c)).
  { intros c Hc. destruct (Cs c Hc) as [H|(_ & _ & H)]; [now exists c|exact H]. }
  assert (Par : forall c f, In c (t_cols tb') -> refers c f -> exists p, mget (fk_table f) db = Some p
      /\ (exists x, col_at p (fk_ref f) = Some x /\ k_pk x || k_unique x = true)
      /\ (rebuilt old new (fk_table f) \/ forall p0 v, mget (fk_table f) db0 = Some p0 -> holds veq p0 (fk_ref f) v = true -> holds veq p (fk_ref f) v = true)).
  { intros c f Hc Hr. destruct (rd_parents _ _ _ _ _ _ Rd n t u c f Rb A B (Side c Hc) Hr) as [Kn Ko].
    apply (key_stays cur db (op :: rest)); [exact N|exact NT|exact Kn|exact Ko]. }
  assert (Null0 : forall q c f r0 v0, rebuilt old new q -> In c (t_cols tb') -> refers c f -> fk_table f = q -> In r0 (b_rows b0) -> get r0 (c_name c) = Some v0 -> v0 = LNull).
  { intros q c f r0 v0 Rq Hc Hr E Hr0 Gv0. destruct (Side c Hc) as [H|H].
    - apply (rd_rebuilt _ _ _ _ _ _ Rd q n b0 f r0 v0 Rq G0); try assumption; [apply (proj2 (proj2 (proj2 (proj2 T0)))); eauto|].
      destruct Hr as (rl & _ & ->). exact Gv0.
    - now apply (rd_rebuilt_new _ _ _ _ _ _ Rd q n t u b0 c f r0 v0 Rq A B H Hr E G0). }
  destruct (rd_temporary _ _ _ _ _ _ Rd n Rb) as (Tp & To & Tn).
  change (temporary n) with (tmp_table_name n) in *. apply (rebuild_runs db n tb tb' b); try assumption.
  - apply V.
  - destruct (get_table cur (tmp_table_name n)) as [x|] eqn:Gx.
    + exfalso. destruct (v_real _ _ _ _ _ _ _ V _ _ Gx) as (bx & Gbx & _). destruct (v_new _ _ _ _ _ _ _ V _ x bx To Gx Gbx) as [_ Bx].
      apply Tn. now exists x.
    + rewrite (v_other _ _ _ _ _ _ _ V _ To Gx). exact Tp.
  - intros c c' Hc Hc' P P'. destruct (Side c Hc) as [H|H], (Side c' Hc') as [H'|H'].
    + now apply (rd_old_key _ _ _ _ _ _ Rd n t A).
    + now apply (rd_key_stays _ _ _ _ _ _ Rd n t u).
    + symmetry. now apply (rd_key_stays _ _ _ _ _ _ Rd n t u).
    + now apply (rd_key _ _ _ _ _ _ Rd n u B).
  - (* the rows fit *) intros c Hc. destruct (in_dec string_dec (c_name c) (map c_name (t_cols t))) as [Hin|Hnin].
    + apply has_column_names in Hin. destruct (rd_fits _ _ _ _ _ _ Rd n t u b0 c Rb A B G0) as (vs & F1 & F2 & F3 & F4).
      { destruct (Side c Hc) as [H|H]; [now left|right; now split]. }
      exists vs. split; [|split; [exact F2|split; [exact F3|]]].
      * eapply Forall2_mono; [|apply (Forall2_map_r _ _ _ _ _ F1 Rows)]. intros r v' Hr _ (r0 & Hr0 & _ & (v0 & Gv0 & Cv0) & Rel).
        apply (same_value cur db n t u tb b b0 c V A B G Gb G0 Hin (HasTb c Hc)) with (r0 := r0) (v0 := v0); try assumption.
        destruct (Cs c Hc) as [H|(H & _)]; [now left|now right].
      * intros f Hr. destruct (Par c f Hc Hr) as (p & Gp & _ & [Rq|Hp]).
        -- apply Forall_forall. intros v' Hv'. left. destruct (Forall2_In_r _ _ _ v' F1 Hv') as (r0 & Hr0 & v0 & Gv0 & Cv0).
           pose proof (Null0 _ c f r0 v0 Rq Hc Hr eq_refl Hr0 Gv0). subst v0. rewrite (so_null _ _ _ Hs) in Cv0. congruence.
        -- specialize (F4 f Hr). eapply Forall_impl; [|exact F4].
           intros v [->|(p0 & Gp0 & Hv)]; [now left|right]. exists p. split; [exact Gp|]. now apply (Hp p0).
    + assert (Ht : ~ has_column t (c_name c)) by (now rewrite has_column_names).
      assert (Htb : In c (t_cols tb)) by (destruct (Cs c Hc) as [H|(_ & H & _)]; [exact H|contradiction]).
      assert (Hu : In c (t_cols u)) by (destruct (Side c Hc) as [H|H]; [exfalso; apply Ht; now exists c|exact H]).
      assert (J : added_column old new n c) by (exists t, u; auto). destruct (rd_added _ _ _ _ _ _ Rd n c J) as (P1 & P2 & _).
      assert (W : forall r, In r (b_rows b) -> exists v, get r (c_name c) = Some v /\ conv strict [word c] v = Some v /\ (c_nullable c = false -> v <> LNull)).
      { intros r Hr. destruct (R r Hr) as [Q1 Q2]. assert (Y : get r (c_name c) <> None) by (apply Q1; now exists c).
        destruct (get r (c_name c)) as [v|] eqn:Gv; [|congruence]. exists v. split; [reflexivity|]. now apply Q2. }
      assert (E : exists vs, Forall2 (fun r v => get r (c_name c) = Some v /\ conv strict [word c] v = Some v /\ (c_nullable c = false -> v <> LNull)) (b_rows b) vs).
      { clear - W. induction (b_rows b) as [|r l IH]; [exists []; constructor|]. destruct (W r (or_introl eq_refl)) as (v & Hv).
        destruct IH as (vs & F); [intros x Hx; apply W; now right|]. exists (v :: vs). constructor; assumption. }
      destruct E as (vs & F). exists vs. split; [|split; [|split]].
      * eapply Forall2_mono; [|exact F]. intros r v _ _ (X1 & X2 & _). eauto.
      * intros Nn. apply Forall_forall. intros v Hv. destruct (Forall2_In_r _ _ _ v F Hv) as (r & _ & _ & _ & X). now apply X.
      * intros [X|X]; congruence.
      * intros f (rl & X & _). rewrite (Un n c J) in X. discriminate.
  - intros c f Hc Hr. unfold parent_ok. destruct (Par c f Hc Hr) as (p & Gp & (x & Gx & Kx) & _). now rewrite Gp, Gx.
  - intros c f Hc Hr. destruct (Cs c Hc) as [H|(H & _)].
    + apply (kept_refs conv strict old new db0 cur db n t tb c f n V A G H Hr).
    + apply (new_refs new db0 Tm n u c f n B H Hr).
  - intros c f r v v' Hc Hr E Hrw Gv Cv. destruct (Forall2_In_r _ _ _ r Rows Hrw) as (r0 & Hr0 & Rel).
    assert (Hin : has_column t (c_name c)).
    { destruct (in_dec string_dec (c_name c) (map c_name (t_cols t))) as [Hin|Hnin]; [now apply has_column_names|]. exfalso. rewrite <- has_column_names in Hnin.
      destruct (Side c Hc) as [H|H]; [apply Hnin; now exists c|]. assert (J : added_column old new n c) by (exists t, u; auto).
      destruct Hr as (rl & X & _). rewrite (Un n c J) in X. discriminate. }
    destruct (Rb0 r0 Hr0) as [Q1 _]. assert (Y : get r0 (c_name c) <> None) by (apply Q1; exact Hin).
    destruct (get r0 (c_name c)) as [v0|] eqn:Gv0; [|congruence]. pose proof (Null0 n c f r0 v0 Rb Hc Hr E Hr0 Gv0). subst v0.
    destruct (same_value cur db n t u tb b b0 c V A B G Gb G0 Hin (HasTb c Hc)) with (r0 := r0) (r := r) (v0 := LNull) (v' := LNull) as (v1 & Gv1 & Cv1); try assumption.
    + destruct (Cs c Hc) as [H|(H & _)]; [now left|now right].
    + apply (so_null _ _ _ Hs).
    + congruence.
  - intros m bm f r v Gm _ Hf E Hr Gv. now apply (null_stays cur db n m bm f r v).
Qed.

Lemma step_runs cur db op rest : next cur db (op :: rest) -> exists db', run conv veq read db (op_ast show strict cur op) = Some db'.
Proof.
  intros N. pose proof (q_inv _ _ _ N) as V. pose proof (q_just _ _ _ N op (or_introl eq_refl)) as J.
  destruct (fine_step old new Wo Wn Fo Fn Df cur op rest (q_fine _ _ _ N) (q_sorted _ _ _ N) (q_nodup _ _ _ N) J) as [F _].
  destruct op as [t|t|t|n|n c|n cn|n oc nc|t].
  - destruct J as [J1 J2]. cbn [op_ast run create_ast exec].
    destruct (create_runs db (t_name t) t strict) as (d1 & E).
    + pose proof (q_tab _ _ _ N t (or_introl eq_refl)) as Gt. rewrite (v_other _ _ _ _ _ _ _ V _ J2 Gt). apply (rd_free _ _ _ _ _ _ Rd); [now exists t|exact J2].
    + apply F.
    + apply (proj2 Wn _ _ J1).
    + apply (rd_key _ _ _ _ _ _ Rd _ _ J1).
    + rewrite E. eauto.
  - destruct J.
  - cbn. eauto.
  - (* RemoveTable *) destruct J as [J1 J2]. cbn [op_ast run exec]. unfold drop.
    destruct (q_drop _ _ _ N n (or_introl eq_refl)) as ((tb & Gt) & Qd). destruct (v_real _ _ _ _ _ _ _ V n tb Gt) as (b & Gb & _). rewrite Gb.
    assert (E : referenced veq db n b = false).
    { unfold referenced. destruct (existsb _ db) eqn:E; [|reflexivity]. apply existsb_exists in E as ([m bm] & Hm & E). cbn [fst snd] in E.
      apply andb_true_iff in E as [E1 E]. apply existsb_exists in E as (f & Hf & E). apply andb_true_iff in E as [E2 E]. apply existsb_exists in E as (r & Hr & E).
      destruct (get r (fk_col f)) as [v|] eqn:Gv; [|discriminate]. apply andb_true_iff in E as [E3 E4]. exfalso.
      apply (In_mget _ _ _ (v_db _ _ _ _ _ _ _ V)) in Hm. destruct (Qd m bm Hm) as [Gm0|X]; [|rewrite X in Hr; destruct Hr].
      destruct (Qd n b Gb) as [Gn0|X]; [|unfold holds in E4; rewrite X in E4; discriminate E4].
      apply String.eqb_eq in E2. rewrite (rd_dropped _ _ _ _ _ _ Rd n J1 J2 m bm f r v b Gm0) in E4; try assumption; [discriminate| |].
      - intros ->. now rewrite String.eqb_refl in E1.
      - intros ->. discriminate. }
    rewrite E. eauto.
  - (* AddColumn *) pose proof J as (t & u & A & B & Hc & Nc). destruct F as (Id & Fc & v & Dv & Rv). cbn [op_ast]. rewrite Dv. cbn [run exec].
    destruct (fi_kept _ _ _ _ (q_fine _ _ _ N) n t u A B) as (tb & G & _). destruct (v_real _ _ _ _ _ _ _ V n tb G) as (b & Gb & T & R).
    destruct (rd_added _ _ _ _ _ _ Rd n c J) as (P1 & P2 & P3).
    destruct (add_runs db n tb c v b Gb T (q_add _ _ _ N n c tb (or_introl eq_refl) G) Fc Dv Rv (Ex n c J) P1 P2) as (d1 & E).
    { intros Nn ->. now apply P3. }
    rewrite E. eauto.
  - (* RemoveColumn *) pose proof J as (t & u & A & B & Ho & Nc). destruct F as (Id & Idc & tb & G & En & Hin & Ft).
    cbn [op_ast]. rewrite G. destruct (v_real _ _ _ _ _ _ _ V n tb G) as (b & Gb & T & R).
    destruct (v_wf _ _ _ _ _ _ _ V) as [_ W]. destruct (W n tb (mget_In _ _ _ G)) as [_ [ND _]].
    apply in_map_iff in Hin as (c1 & <- & Hc1). rewrite (In_col_by_name _ _ ND Hc1).
    assert (Hold : In c1 (t_cols t)).
    { destruct (v_cols _ _ _ _ _ _ _ V n t tb c1 A G Hc1) as [H|(u' & B' & H)]; [exact H|]. exfalso. apply Nc.
      pose proof (one_table _ _ _ _ Wn B' B). subst u'. now exists c1. }
    destruct (c_ref c1) as [rf|] eqn:Er.
    + apply (rebuild_ok cur db (RemoveColumn n (c_name c1)) rest n t u tb (remove_column (rename tb (tmp_table_name n)) (c_name c1)) b N eq_refl); try assumption; try reflexivity.
      * exists t, u. split; [exact A|]. split; [exact B|]. right. exists c1. split; [exact Hold|]. split; [congruence|exact Nc].
      * apply Ft.
      * cbn. rewrite remove_names. now apply NoDup_filter.
      * intros c Hc. cbn in Hc. apply filter_In in Hc as [Hc _]. now left.
    + cbn [run exec]. destruct (rd_removed _ _ _ _ _ _ Rd n t u c1 A B Hold Nc Er) as [P1 P2].
      destruct (drop_col_runs db n tb c1 b Gb T ND Hc1 Er P1 P2) as (d1 & E); [apply Ft|]. rewrite E. eauto.
  - (* ChangeColumn *) pose proof J as (t & u & A & B & Ho & Hc & En & Ns). destruct F as (tb & G & Et & Ft).
    cbn [op_ast]. rewrite G. destruct (v_real _ _ _ _ _ _ _ V n tb G) as (b & Gb & T & R).
    destruct (v_wf _ _ _ _ _ _ _ V) as [_ W]. destruct (W n tb (mget_In _ _ _ G)) as [_ [ND _]].
    assert (Htb : has_column tb (c_name nc)).
    { destruct (fi_kept _ _ _ _ (q_fine _ _ _ N) n t u A B) as (tb1 & G1 & Kc & _). assert (tb1 = tb) by congruence. subst tb1.
      destruct (Kc nc Hc) as [H|(c' & E' & Ha)]; [now apply has_column_names|]. exfalso.
      destruct (q_just _ _ _ N _ Ha) as (t' & u' & A' & _ & _ & X). pose proof (one_table _ _ _ _ Wo A' A). subst t'. apply X. exists oc. split; [exact Ho|congruence]. }
    apply (rebuild_ok cur db (ChangeColumn n oc nc) rest n t u tb (replace_column (rename tb (tmp_table_name n)) nc) b N eq_refl); try assumption; try reflexivity.
    + exists t, u. split; [exact A|]. split; [exact B|]. left. exists oc, nc. auto.
    + apply Ft.
    + cbn. rewrite replace_col_names. apply has_column_names, kmem_In in Htb. now rewrite Htb.
    + intros c Hc'. cbn in Hc'. apply replace_col_In in Hc' as [->|H]; [|now left]. right. split; [exact Hc|]. split; [now exists oc|exact Htb].
  - cbn. eauto.
Qed.

Lemma step_next cur db op rest db' : next cur db (op :: rest) -> run conv veq read db (op_ast show strict cur op) = Some db' -> next (transform_with cur op) db' rest.
Proof.
  intros N E. pose proof (q_inv _ _ _ N) as V. pose proof (q_just _ _ _ N op (or_introl eq_refl)) as J.
  destruct (fine_step old new Wo Wn Fo Fn Df cur op rest (q_fine _ _ _ N) (q_sorted _ _ _ N) (q_nodup _ _ _ N) J) as [F F'].
  destruct (StronglySorted_inv (q_sorted _ _ _ N)) as [Srt Aft]. rewrite Forall_forall in Aft.
  pose proof (proj1 (NoDup_cons_iff _ _) (q_nodup _ _ _ N)) as [Nin ND].
  pose proof (fun o Ho => q_just _ _ _ N o (or_intror Ho)) as Jr.
  pose proof (fi_sorted _ _ _ _ (q_fine _ _ _ N)) as Sc.
  constructor; try assumption.
  - apply (inv_step conv veq read show strict Hs Hshow old new Wo Wn db0 R0 Ex Un Tm cur db db' op V J F E).
  - intros m c tb Hin G. pose proof (Jr _ Hin) as (t & u & A & B & Hc & Nc).
    pose proof (fun x => q_add _ _ _ N m c x (or_intror Hin)) as Q.
    destruct (op_col_table op) as [n|] eqn:O.
    + destruct (transform_col_op cur op n Sc O) as (_ & _ & Gt). rewrite Gt in G. destruct (keqb_spec m n) as [->|]; [|now apply Q].
      destruct (get_table cur n) as [x|] eqn:Gx; [|discriminate]. injection G as <-. specialize (Q x eq_refl). rewrite has_column_names in Q |- *.
      destruct op as [?|?|?|?|? c1|? cn|? oc nc|?]; try discriminate O; injection O as ->; cbn [op_on_table t_cols replace_column remove_column].
      * rewrite replace_col_names_In. intros [H|H]; [contradiction|]. destruct J as (t' & u' & A' & B' & Hc' & _).
        pose proof (one_table _ _ _ _ Wn B' B). subst u'. apply Nin. assert (c1 = c); [|now subst].
        apply (name_inj (t_cols u)); [apply (proj2 Wn _ _ B)|exact Hc'|exact Hc|congruence].
      * rewrite remove_names_In. tauto.
      * rewrite replace_col_names_In. intros [H|H]; [contradiction|]. destruct J as (t' & u' & A' & B' & Ho & _ & En & _).
        pose proof (one_table _ _ _ _ Wo A' A). subst t'. apply Nc. exists oc. split; [exact Ho|congruence].
    + destruct (transform_table_op cur op Sc O) as (_ & Gt). rewrite Gt in G. destruct op; try discriminate O; try (now apply Q).
      * destruct (keqb_spec m (t_name t0)) as [->|]; [|now apply Q]. destruct J as [_ J]. exfalso. apply J. now exists t.
      * destruct (keqb_spec m n) as [->|]; [discriminate|now apply Q].
  - intros t Hin. pose proof (q_tab _ _ _ N t (or_intror Hin)) as Q. destruct (Jr _ Hin) as [J1 J2].
    destruct (op_col_table op) as [n|] eqn:O.
    + destruct (transform_col_op cur op n Sc O) as (_ & _ & Gt). rewrite Gt. destruct (keqb_spec (t_name t) n) as [<-|]; now rewrite Q.
    + destruct (transform_table_op cur op Sc O) as (_ & Gt). rewrite Gt, Q. destruct op; try discriminate O; try reflexivity.
      * destruct (keqb_spec (t_name t) (t_name t0)) as [X|]; [|reflexivity]. exfalso. apply Nin. destruct J as [J _]. rewrite <- X in J.
        now rewrite (one_table _ _ _ _ Wn J J1).
      * destruct J.
      * now destruct (keqb (t_name t) n).
  - intros m u B No. destruct (op_col_table op) as [n|] eqn:O.
    + destruct (transform_col_op cur op n Sc O) as (_ & _ & Gt). rewrite Gt.
      destruct (q_new _ _ _ N m u B No) as [(tb & G)|[->|H]]; [|discriminate O|now right].
      left. destruct (keqb_spec m n) as [<-|]; rewrite G; cbn; eauto.
    + destruct (transform_table_op cur op Sc O) as (_ & Gt). rewrite Gt.
      destruct (q_new _ _ _ N m u B No) as [(tb & G)|[->|H]]; [| |now right]; left.
      * rewrite G. destruct op; try discriminate O; eauto.
        -- destruct (keqb m (t_name t)); eauto.
        -- destruct J.
        -- destruct (keqb_spec m n) as [->|]; [|eauto]. destruct J as [J _]. contradiction.
      * destruct (proj2 Wn m u B) as [<- _]. rewrite keqb_refl. eauto.
  - intros n Hin. destruct (q_drop _ _ _ N n (or_intror Hin)) as ((tb & G) & Qd). destruct (Aft _ Hin) as [L _]. cbn in L.
    destruct op as [t|t|t|m|m c|m cn|m oc nc|t]; cbn in L; try (exfalso; lia).
    + destruct J as [J1 J2]. split.
      * destruct (transform_table_op cur (AddTable t) Sc eq_refl) as (_ & Gt). rewrite Gt, G. destruct (keqb n (t_name t)); eauto.
      * cbn [op_ast run create_ast exec] in E.
        destruct (create db false (t_name t) (map coldef_of (t_cols t)) (flat_map fk_of (t_cols t)) strict) as [d1|] eqn:E1; [|discriminate].
        injection E as <-. destruct (create_gives strict _ _ _ _ (proj2 (proj2 F)) E1) as (_ & _ & b & -> & _ & Rw & _).
        intros k bk. rewrite (mget_mput _ _ _ _ (v_db _ _ _ _ _ _ _ V)). destruct (keqb k (t_name t)); [intros [= <-]; now right|apply Qd].
    + destruct J.
    + split; [eauto|]. cbn in E. injection E as <-. exact Qd.
    + destruct (transform_table_op cur (RemoveTable m) Sc eq_refl) as (_ & Gt). split.
      * rewrite Gt, G. destruct (keqb_spec n m) as [->|]; [contradiction|eauto].
      * cbn [op_ast run exec] in E. unfold drop in E. destruct (mget m db); [|discriminate]. destruct (referenced veq db m e); [discriminate|]. injection E as <-.
        intros k bk. rewrite mget_mdel. destruct (keqb k m); [discriminate|apply Qd].
Qed.

Lemma all_run ops : forall cur db, next cur db ops -> exists db', run conv veq read db (ops_ast show strict cur ops) = Some db'.
Proof.
  induction ops as [|op ops IH]; intros cur db N; [cbn; eauto|]. cbn [ops_ast]. destruct (step_runs cur db op ops N) as (d1 & E).
  rewrite run_app, E. apply IH. now apply (step_next cur db op ops).
Qed.

Theorem ready_runs ops : diff_out old new = Ok ops -> exists db, run conv veq read db0 (ops_ast show strict old ops) = Some db.
Proof.
  intros E. rewrite diff_eq in E. injection E as <-. apply all_run. constructor.
  - apply inv_start; assumption.
  - constructor; [apply Wo| |].
    + intros n t G. destruct (wf_get _ _ _ Wo G) as [En _]. pose proof (Fo _ _ (mget_In _ _ _ G)) as F. split; [exact En|]. rewrite <- En. split; apply F.
    + intros n t u A B. exists t. split; [apply In_mget; [apply Wo|exact A]|]. split.
      * intros c Hc. destruct (in_dec string_dec (c_name c) (map c_name (t_cols t))) as [Hin|Nin]; [now left|right].
        exists c. split; [reflexivity|]. apply diff_In; [assumption..|]. exists t, u. repeat split; auto.
        intros X. apply Nin. apply has_column_names. exact X.
      * intros cn H. apply diff_In in H; [|assumption..]. destruct H as (t' & u' & A' & B' & H & _).
        rewrite (one_table _ _ _ _ Wo A A'). apply has_column_names. exact H.
  - intros op. apply diff_In; assumption.
  - apply diff_sorted; assumption.
  - apply diff_nodup; assumption.
  - intros n c tb H G. apply diff_In in H; [|assumption..]. destruct H as (t & u & A & _ & _ & H). apply (get_In old n tb Wo) in G.
    now rewrite (one_table _ _ _ _ Wo G A).
  - intros t H. apply diff_In in H; [|assumption..]. destruct H as [_ H]. destruct (get_table old (t_name t)) as [x|] eqn:G; [|reflexivity].
    exfalso. apply H. exists x. now apply (get_In old _ x Wo).
  - intros n u B No. right. apply diff_In; [assumption..|]. cbn. destruct (proj2 Wn n u B) as [-> _]. auto.
  - intros n H. apply diff_In in H; [|assumption..]. destruct H as [(t & H) _]. split; [exists t; now apply get_In|]. auto.
Qed.
End Ready.
