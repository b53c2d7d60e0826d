(** Proofs about stored rows. *)
From Coq Require Import Permutation.
From Verif Require Import Base SqlVal Sql SqlStmt Query QuerySpec Stmt StmtSpec Adb AdbSpec LiteralSpec Ddl DdlSpec
  Backend BackendSpec Turso SqliteSem MigrateSpec SqliteData DataCalls StoredSpec RenderProofs StoredRel MigrateProofs MigrateReady
  SqliteDdlProofs.

Lemma row_is_get c r x : row_is r x -> opt_rel (fun v l => sqlite_write v = Ok l) (field c r) (get x c).
Proof.
  induction 1 as [|[n v] [m l] r x [H1 H2] F IH]; [exact I|]. cbn in H1, H2. subst m. cbn [field]. unfold get in *. cbn [find fst].
  destruct (String.eqb n c); [exact H2|exact IH].
Qed.
Lemma row_is_names r x : row_is r x -> map fst r = map fst x.
Proof. induction 1 as [|p q r x [H _] F IH]; [reflexivity|]. cbn. now rewrite H, IH. Qed.
Lemma field_In c (r : arow) : In c (map fst r) -> exists v, field c r = Some v.
Proof.
  induction r as [|[n v] r IH]; intros H; [destruct H|]. cbn. destruct (String.eqb_spec n c); [eauto|].
  apply IH. destruct H; [cbn in *; congruence|assumption].
Qed.
Lemma field_pair c v (r : arow) : field c r = Some v -> In (c, v) r.
Proof.
  induction r as [|[n w] r IH]; [discriminate|]. cbn. destruct (String.eqb_spec n c) as [->|]; [|auto].
  intros H. injection H as ->. now left.
Qed.

Section Proofs.
Variable json_text : string -> option string.
Variable E : engine.
Variable veq : lvalue -> lvalue -> bool.
Variable conv : bool -> list string -> lvalue -> option lvalue.
Variable read : bool -> string -> f64.
Variable strict : bool.
Variable fresh : etab -> Z.
Hypothesis EO : engine_ok E.
Hypothesis CS : compares_stored E veq.
Hypothesis SO : storage_ok conv strict read.

Notation column_takes := (column_takes json_text).
Notation given_fits := (given_fits json_text).
Notation row_fits := (row_fits json_text).

Lemma f64_finite_not_nan r : f64_finite r = true -> f64_is_nan r = false.
Proof. unfold f64_finite, f64_is_nan. intros H. apply Z.ltb_lt in H. apply Z.ltb_ge. lia. Qed.

(** A fitting value is stored as it is written. *)
Lemma takes_stored c v l : column_takes c v -> sqlite_write v = Ok l ->
  sqlite_keeps l = l /\ conv strict [word c] l = Some l
  /\ (lnull l = true -> c_nullable c = true /\ c_pk c = false)
  /\ (word c = "INTEGER" -> lnull l = true \/ is_integer l = true).
Proof.
  intros (ty & T & K & VO & NC & FI & NU) W. destruct SO. unfold word. rewrite T.
  destruct K as [->|K].
  - cbn in W. injection W as <-. split; [reflexivity|]. split; [apply so_null|]. split; [now intros _; apply NU|auto].
  - destruct v; cbn in K, W; try discriminate K; injection K as <-; try discriminate W; injection W as <-; cbn [class_of class_word];
      (split; [cbn; try reflexivity|split; [auto|split; [discriminate|auto; try discriminate]]]).
    rewrite f64_finite_not_nan; [reflexivity|]. now apply FI.
Qed.

Lemma declared t b c : table_is strict t b -> In c (t_cols t) -> exists k, col_at b (c_name c) = Some k /\ In k (b_cols b) /\ declares c k.
Proof.
  intros (_ & ND & H & _) Hc. destruct (H c Hc) as (k & Hk & Dk). exists k. split; [|auto].
  apply col_at_iff; [assumption|]. split; [assumption|]. apply Dk.
Qed.

Lemma stored_cell_ok t b p q : table_is strict t b -> given_fits t (fst p) (snd p) -> cells p q ->
  exists l, stored_cell conv fresh b q = Some (fst p, l) /\ sqlite_write (snd p) = Ok l.
Proof.
  intros TI (c & Hc & Hn & TK) (H1 & l & W1 & W2). exists l. split; [|assumption].
  destruct (declared t b c TI Hc) as (k & Hk & _ & (D1 & D2 & D3 & D4 & D5)).
  destruct (takes_stored c (snd p) l TK W1) as (K1 & K2 & K3 & K4).
  unfold stored_cell. rewrite <- H1, <- Hn, Hk, W2, K1. cbv zeta.
  assert (X : rowid k && lnull l = false).
  { unfold rowid. rewrite D4. destruct (lnull l) eqn:EL; [|now rewrite andb_false_r]. destruct (K3 eq_refl) as [_ ->]. reflexivity. }
  rewrite X, D2. destruct TI as (-> & _). rewrite K2, D3, D4.
  destruct (lnull l) eqn:EL.
  - destruct (K3 eq_refl) as [Y1 Y2]. rewrite Y1, Y2. cbn [negb orb andb]. rewrite andb_false_r. cbn [andb]. unfold rowid. rewrite D4, Y2. reflexivity.
  - rewrite andb_false_r. unfold rowid. rewrite D2. destruct (String.eqb_spec (word c) "INTEGER") as [Ew|]; [|rewrite andb_false_r; reflexivity].
    destruct (K4 Ew) as [Y|Y]; [congruence|]. rewrite Y. rewrite andb_false_r. reflexivity.
Qed.
Lemma stored_row_ok t b r x : table_is strict t b -> row_fits t r -> rel r x ->
  exists y, stored_row conv fresh b x = Some y /\ row_is r y.
Proof.
  intros TI (ND & NM & FI) R. unfold stored_row.
  assert (X : forallb (fun k => existsb (String.eqb (k_name k)) (map fst x)) (b_cols b) = true).
  { apply forallb_forall. intros k Hk. apply existsb_exists. exists (k_name k). split; [|apply String.eqb_refl].
    rewrite <- (rel_names r x R). apply NM. destruct TI as (_ & _ & _ & H & _). destruct (H k Hk) as (c & Hc & Dk). exists c. split; [assumption|]. symmetry. apply Dk. }
  rewrite X. clear X ND NM. induction R as [|p q r x C R IH]; [exists []; split; [reflexivity|constructor]|].
  inversion FI as [|? ? F1 F2]; subst. destruct (IH F2) as (y & Y1 & Y2). destruct (stored_cell_ok t b p q TI F1 C) as (l & S & W).
  cbn [mapm]. rewrite S, Y1. eexists. split; [reflexivity|]. constructor; [|exact Y2]. split; [reflexivity|exact W].
Qed.
Lemma stored_rows_ok t b l m : table_is strict t b -> Forall (row_fits t) l -> Forall2 rel l m ->
  exists rs, mapm (stored_row conv fresh b) m = Some rs /\ Forall2 row_is l rs.
Proof.
  intros TI F R. induction R as [|r x l m A R IH]; [exists []; split; [reflexivity|constructor]|].
  inversion F as [|? ? F1 F2]; subst. destruct (IH F2) as (rs & Y1 & Y2). destruct (stored_row_ok t b r x TI F1 A) as (y & S & W).
  cbn [mapm]. rewrite S, Y1. eexists. split; [reflexivity|]. now constructor.
Qed.

(** * Keys *)
Lemma equal_stored x y l m : sqlite_write x = Ok l -> sqlite_write y = Ok m -> (equal E x y <-> veq l m = true).
Proof.
  intros X Y. rewrite (cs_veq E veq CS). unfold equal.
  now rewrite (cmp_alike E veq CS CEq x (as_val l) y (as_val m) (alike_val _ _ X) (alike_val _ _ Y)).
Qed.
Lemma null_unequal m : veq LNull m = false.
Proof.
  destruct (veq LNull m) eqn:X; [|reflexivity]. apply (cs_veq E veq CS) in X. unfold equal, compare3 in X. cbn in X. now rewrite (null_l E EO) in X.
Qed.
Lemma no_twice_iff l : no_twice veq l = true <-> forall i j x y, i < j -> nth_error l i = Some x -> nth_error l j = Some y -> veq x y = false.
Proof.
  induction l as [|v l IH]; [split; [intros _ [|i] j x y _ H; discriminate|reflexivity]|]. cbn [no_twice]. rewrite andb_true_iff, IH. split.
  - intros [A B] [|i] [|j] x y L Hx Hy; try lia; cbn in Hx, Hy.
    + injection Hx as ->. apply orb_true_iff in A as [A|A]; [destruct x; try discriminate; apply null_unequal|].
      destruct (veq x y) eqn:V; [|reflexivity]. apply negb_true_iff in A.
      assert (existsb (veq x) l = true) by (apply existsb_exists; exists y; split; [exact (nth_error_In _ _ Hy)|assumption]). congruence.
    + apply (B i j x y); [lia|assumption..].
  - intros H. split.
    + apply orb_true_iff. right. apply negb_true_iff. destruct (existsb (veq v) l) eqn:X; [|reflexivity].
      apply existsb_exists in X as (y & Hy & V). apply In_nth_error in Hy as (j & Hj). rewrite (H 0 (S j) v y) in V; [discriminate|lia|reflexivity|assumption].
    + intros i j x y L Hx Hy. apply (H (S i) (S j) x y); [lia|assumption..].
Qed.
Lemma column_values_nth c rs : (forall r, In r rs -> get r c <> None) ->
  forall i, nth_error (column_values c rs) i = match nth_error rs i with Some r => get r c | None => None end.
Proof.
  induction rs as [|r rs IH]; intros H i; [now destruct i|]. unfold column_values in *. cbn [flat_map].
  destruct (get r c) as [v|] eqn:G; [|exfalso; apply (H r); [now left|assumption]]. cbn [List.app].
  destruct i as [|i]; cbn [nth_error]; [now rewrite G|]. apply IH. intros r' Hr'. apply H. now right.
Qed.
Lemma Forall2_nth {A B} (R : A -> B -> Prop) l m : Forall2 R l m -> forall i, opt_rel R (nth_error l i) (nth_error m i).
Proof. induction 1; intros [|i]; cbn; auto. Qed.

Lemma fits_has_get t r y c : row_fits t r -> row_is r y -> In c (t_cols t) -> exists v l, field (c_name c) r = Some v /\ get y (c_name c) = Some l /\ sqlite_write v = Ok l.
Proof.
  intros (_ & NM & _) R Hc. assert (I : In (c_name c) (map fst r)) by (apply NM; exists c; auto).
  destruct (field_In _ _ I) as (v & Hv). pose proof (row_is_get (c_name c) r y R) as X. rewrite Hv in X. destruct (get y (c_name c)) as [l|] eqn:G; [|destruct X]. exists v, l. auto.
Qed.
Lemma Forall2_In_r {A B} (R : A -> B -> Prop) l m y : Forall2 R l m -> In y m -> exists x, In x l /\ R x y.
Proof.
  induction 1 as [|a b l m H F IH]; intros I; [destruct I|]. destruct I as [->|I]; [exists a; cbn; auto|].
  destruct (IH I) as (x & Hx & Rx). exists x. cbn. auto.
Qed.
Lemma Forall2_In_l {A B} (R : A -> B -> Prop) l m x : Forall2 R l m -> In x l -> exists y, In y m /\ R x y.
Proof.
  induction 1 as [|a b l m H F IH]; intros I; [destruct I|]. destruct I as [->|I]; [exists b; cbn; auto|].
  destruct (IH I) as (y & Hy & Ry). exists y. cbn. auto.
Qed.

Lemma keys_iff t b l rs : table_is strict t b -> Forall (row_fits t) l -> Forall2 row_is l rs ->
  (keys_ok veq (with_rows b rs) = true <->
   forall c i j r s x y, In c (t_cols t) -> c_pk c = true \/ c_unique c = true -> i < j ->
     nth_error l i = Some r -> nth_error l j = Some s -> field (c_name c) r = Some x -> field (c_name c) s = Some y -> ~ equal E x y).
Proof.
  intros TI F R. unfold keys_ok. cbn [with_rows b_cols b_rows]. rewrite forallb_forall.
  assert (HG : forall c r, In c (t_cols t) -> In r rs -> get r (c_name c) <> None).
  { intros c r Hc Hr. destruct (Forall2_In_r _ _ _ r R Hr) as (a & Ha & Ra). rewrite Forall_forall in F.
    destruct (fits_has_get t a r c (F a Ha) Ra Hc) as (v & w & _ & G & _). congruence. }
  split.
  - intros H c i j r s x y Hc K L Hi Hj Hx Hy Q. destruct (declared t b c TI Hc) as (k & _ & Hk & (D1 & D2 & D3 & D4 & D5)).
    specialize (H k Hk). rewrite D1, D4, D5 in H. apply orb_true_iff in H as [H|H]; [destruct K as [K|K]; rewrite K in H; [|rewrite orb_true_r in H]; discriminate|].
    rewrite no_twice_iff in H.
    pose proof (Forall2_nth _ _ _ R i) as Ni. rewrite Hi in Ni. destruct (nth_error rs i) as [r'|] eqn:Ei; [|destruct Ni].
    pose proof (Forall2_nth _ _ _ R j) as Nj. rewrite Hj in Nj. destruct (nth_error rs j) as [s'|] eqn:Ej; [|destruct Nj].
    pose proof (row_is_get (c_name c) _ _ Ni) as Gi. rewrite Hx in Gi. destruct (get r' (c_name c)) as [v|] eqn:Gv; [|destruct Gi].
    pose proof (row_is_get (c_name c) _ _ Nj) as Gj. rewrite Hy in Gj. destruct (get s' (c_name c)) as [w|] eqn:Gw; [|destruct Gj].
    cbn in Gi, Gj. apply (equal_stored x y v w Gi Gj) in Q. rewrite (H i j v w L) in Q; [discriminate|..];
      rewrite column_values_nth by (intros; now apply HG); rewrite ?Ei, ?Ej; assumption.
  - intros H k Hk. destruct TI as (T1 & T2 & T3 & T4 & T5). destruct (T4 k Hk) as (c & Hc & (D1 & D2 & D3 & D4 & D5)).
    rewrite D1, D4, D5. destruct (c_pk c || c_unique c) eqn:K; [|reflexivity]. apply orb_true_iff in K. cbn [negb orb].
    apply no_twice_iff. intros i j v w L Hi Hj. rewrite column_values_nth in Hi, Hj by (intros; now apply HG).
    destruct (nth_error rs i) as [r'|] eqn:Ei; [|discriminate]. destruct (nth_error rs j) as [s'|] eqn:Ej; [|discriminate].
    pose proof (Forall2_nth _ _ _ R i) as Ni. rewrite Ei in Ni. destruct (nth_error l i) as [r|] eqn:Fi; [|destruct Ni].
    pose proof (Forall2_nth _ _ _ R j) as Nj. rewrite Ej in Nj. destruct (nth_error l j) as [s|] eqn:Fj; [|destruct Nj].
    pose proof (row_is_get (c_name c) _ _ Ni) as Gi. rewrite Hi in Gi. destruct (field (c_name c) r) as [x|] eqn:Fx; [|destruct Gi].
    pose proof (row_is_get (c_name c) _ _ Nj) as Gj. rewrite Hj in Gj. destruct (field (c_name c) s) as [y|] eqn:Fy; [|destruct Gj].
    cbn in Gi, Gj. destruct (veq v w) eqn:V; [|reflexivity]. exfalso. apply (equal_stored x y v w Gi Gj) in V.
    exact (H c i j r s x y Hc K L Fi Fj Fx Fy V).
Qed.

(** * References *)
Lemma fk_iff D db f r y x p : has_rows D db -> row_is r y -> field (fk_col f) r = Some x -> mget (fk_table f) db = Some p ->
  (fk_holds veq db f y = true <-> x = VNull \/ exists pr z, In pr (D (fk_table f)) /\ field (fk_ref f) pr = Some z /\ equal E x z).
Proof.
  intros HR R Hx Hp. unfold fk_holds. pose proof (row_is_get (fk_col f) r y R) as G. rewrite Hx in G.
  destruct (get y (fk_col f)) as [v|]; [|destruct G]. cbn in G. rewrite Hp, orb_true_iff.
  pose proof (HR (fk_table f)) as HT. rewrite Hp in HT. split.
  - intros [N|H]; [left; destruct v; try discriminate; destruct x; cbn in G; congruence|]. right.
    unfold holds in H. apply existsb_exists in H as (w & Hw & V). destruct (get w (fk_ref f)) as [m|] eqn:Gm; [|discriminate].
    destruct (Forall2_In_r _ _ _ w HT Hw) as (pr & Hpr & Rpr). pose proof (row_is_get (fk_ref f) pr w Rpr) as X. rewrite Gm in X.
    destruct (field (fk_ref f) pr) as [z|] eqn:Fz; [|destruct X]. exists pr, z. split; [assumption|]. split; [exact Fz|]. now apply (equal_stored x z v m G X).
  - intros [->|(pr & z & Hpr & Hz & Q)]; [left; cbn in G; injection G as <-; reflexivity|]. right.
    destruct (Forall2_In_l _ _ _ pr HT Hpr) as (w & Hw & Rw). pose proof (row_is_get (fk_ref f) pr w Rw) as X. rewrite Hz in X.
    destruct (get w (fk_ref f)) as [m|] eqn:Gm; [|destruct X]. unfold holds. apply existsb_exists. exists w. split; [assumption|].
    rewrite Gm. now apply (equal_stored x z v m G X).
Qed.

Definition refs_of (d : ADB) (D : Sql.db) : Prop :=
  forall n t c f r x, In (n, t) (a_tables d) -> In c (t_cols t) -> refers c f ->
    In r (D n) -> field (fk_col f) r = Some x -> x = VNull \/
    exists p y, In p (D (fk_table f)) /\ field (fk_ref f) p = Some y /\ equal E x y.

Lemma parent_there d db n t c f : realises conv strict d db -> references_keys d ->
  In (n, t) (a_tables d) -> In c (t_cols t) -> refers c f -> parent_ok db f = true /\ exists p, mget (fk_table f) db = Some p.
Proof.
  intros RE RK Hn Hc Hf. destruct (RK n t c f Hn Hc Hf) as (u & k & Hu & Hk & Nk & K).
  destruct (RE _ _ Hu) as (p & Hp & TI & _). split; [|eauto]. unfold parent_ok. rewrite Hp.
  destruct (declared u p k TI Hk) as (e & He & _ & (D1 & D2 & D3 & D4 & D5)). rewrite <- Nk, He, D4, D5. destruct K as [->| ->]; [reflexivity|apply orb_true_r].
Qed.

Lemma refs_iff d D db n : msorted db -> wf_schema d -> realises conv strict d db -> references_keys d -> has_rows D db ->
  (forall m t, In (m, t) (a_tables d) -> Forall (row_fits t) (D m)) ->
  (forall m b, mget m db = Some b -> has_table d m \/ b_fks b = []) ->
  (references_hold veq db n = true <->
   forall m t c f r x, In (m, t) (a_tables d) -> In c (t_cols t) -> refers c f -> m = n \/ fk_table f = n ->
     In r (D m) -> field (fk_col f) r = Some x -> x = VNull \/
     exists p y, In p (D (fk_table f)) /\ field (fk_ref f) p = Some y /\ equal E x y).
Proof.
  intros SD [WS _] RE RK HR FI OT. unfold references_hold. rewrite forallb_forall. split.
  - intros H m t c f r x Hm Hc Hf W Hr Hx. destruct (RE m t Hm) as (b & Hb & TI & _).
    assert (Hi : In f (b_fks b)) by (destruct TI as (_ & _ & _ & _ & T5); apply T5; eauto).
    specialize (H (m, b) (mget_In _ _ _ Hb)). rewrite forallb_forall in H. specialize (H f Hi). cbn [fst snd] in H.
    destruct (parent_there d db m t c f RE RK Hm Hc Hf) as (_ & p & Hp).
    apply orb_true_iff in H as [H|H].
    + exfalso. apply negb_true_iff, orb_false_iff in H as [H1 H2]. apply String.eqb_neq in H1, H2. tauto.
    + apply andb_true_iff in H as [_ H]. rewrite forallb_forall in H. pose proof (HR m) as Rm. rewrite Hb in Rm.
      destruct (Forall2_In_l _ _ _ r Rm Hr) as (y & Hy & Ry). now apply (fk_iff D db f r y x p HR Ry Hx Hp), H.
  - intros H [m b] Hmb. apply forallb_forall. intros f Hi. cbn [fst snd] in *. apply (In_mget _ _ _ SD) in Hmb.
    destruct (OT m b Hmb) as [(t & Ht)|N]; [|rewrite N in Hi; destruct Hi].
    destruct (RE m t Ht) as (b' & Hb' & TI & _). rewrite Hmb in Hb'. injection Hb' as <-.
    assert (X : exists c, In c (t_cols t) /\ refers c f) by (destruct TI as (_ & _ & _ & _ & T5); now apply T5). destruct X as (c & Hc & Hf).
    destruct (parent_there d db m t c f RE RK Ht Hc Hf) as (PO & p & Hp).
    destruct (String.eqb m n || String.eqb (fk_table f) n) eqn:W; [|reflexivity]. cbn [negb orb]. rewrite PO. cbn [andb]. apply forallb_forall.
    intros y Hy. pose proof (HR m) as Rm. rewrite Hmb in Rm. destruct (Forall2_In_r _ _ _ y Rm Hy) as (r & Hr & Ry).
    pose proof (FI m t Ht) as Fm. rewrite Forall_forall in Fm. destruct Hf as (rl & Hrl & Ef).
    destruct (fits_has_get t r y c (Fm r Hr) Ry Hc) as (x & l & Hx & _).
    assert (Ec : fk_col f = c_name c) by now subst f.
    apply (fk_iff D db f r y x p HR Ry); [now rewrite Ec|assumption|]. apply (H m t c f r x); try assumption; [now exists rl| |now rewrite Ec].
    apply orb_true_iff in W as [W|W]; apply String.eqb_eq in W; auto.
Qed.

(** * The table with new rows *)
Lemma rows_are_ok t b l rs : table_is strict t b -> Forall (row_fits t) l -> Forall2 row_is l rs -> NoDup (map c_name (t_cols t)) ->
  rows_are conv strict t (with_rows b rs).
Proof.
  intros TI F R ND y Hy. cbn [with_rows b_rows] in Hy. destruct (Forall2_In_r _ _ _ y R Hy) as (r & Hr & Ry).
  rewrite Forall_forall in F. pose proof (F r Hr) as FI. destruct FI as (N1 & N2 & N3). split; [split|].
  - assert (En : map fst y = map fst r); [|now rewrite En]. clear -Ry. induction Ry as [|p q r y [E _] _ IH]; [reflexivity|]. cbn. now rewrite E, IH.
  - intros n. pose proof (row_is_get n r y Ry) as G. rewrite <- N2. split.
    + intros H. destruct (field n r) as [v|] eqn:Fn; [|destruct (get y n); [destruct G|congruence]].
      apply field_pair in Fn. now apply (in_map fst) in Fn.
    + intros H. destruct (field_In _ _ H) as (v & Hv). rewrite Hv in G. destruct (get y n); [discriminate|destruct G].
  - intros c v Hc Hv. pose proof (row_is_get (c_name c) r y Ry) as G. rewrite Hv in G. destruct (field (c_name c) r) as [x|] eqn:Fx; [|destruct G].
    apply field_pair in Fx. rewrite Forall_forall in N3. destruct (N3 _ Fx) as (c' & Hc' & Nc' & TK). cbn [fst snd] in *.
    assert (c' = c).
    { clear -ND Hc Hc' Nc'. induction (t_cols t) as [|a cs IH]; [destruct Hc|]. cbn in ND. inversion ND as [|? ? M1 M2]; subst.
      destruct Hc as [->|Hc], Hc' as [->|Hc']; auto; exfalso; apply M1; [rewrite <- Nc'|rewrite Nc']; now apply in_map. }
    subst c'. cbn in G. destruct (takes_stored c x v TK G) as (_ & K2 & K3 & _). split; [assumption|].
    intros Nl ->. destruct (K3 eq_refl). congruence.
Qed.
Lemma same_table (d : ADB) n t u : wf_schema d -> In (n, t) (a_tables d) -> In (n, u) (a_tables d) -> t = u.
Proof. intros [WS _] A B. apply (In_mget _ _ _ WS) in A, B. congruence. Qed.

Theorem settled d D db n t b l m :
  wf_schema d -> references_keys d -> keeps json_text E conv strict d D db -> In (n, t) (a_tables d) -> mget n db = Some b ->
  Forall (row_fits t) l -> Forall2 rel l m ->
  (exists db', settle conv veq fresh db n b m = Some db' /\ keeps json_text E conv strict d (with_table D n l) db'
     /\ forall k, k <> n -> mget k db' = mget k db)
  \/ (settle conv veq fresh db n b m = None /\ ~ legal E d (with_table D n l)).
Proof.
  intros WF RK [SD RE HR FI OT [LK LR]] Hn Hb F R.
  destruct (RE n t Hn) as (b' & Hb' & TI & _). rewrite Hb in Hb'. injection Hb' as <-.
  destruct (stored_rows_ok t b l m TI F R) as (rs & ES & RS).
  set (D' := with_table D n l). set (db' := mput n (with_rows b rs) db).
  assert (G : forall k, mget k db' = if String.eqb k n then Some (with_rows b rs) else mget k db).
  { intros k. unfold db'. rewrite (mget_mput n (with_rows b rs) db k SD).
    destruct (keqb_spec k n) as [->|Ne]; [now rewrite String.eqb_refl|]. apply String.eqb_neq in Ne. now rewrite Ne. }
  assert (SD' : msorted db') by now apply mput_sorted.
  assert (HR' : has_rows D' db').
  { intros k. rewrite G. unfold D', with_table. destruct (String.eqb_spec k n) as [->|]; [exact RS|apply HR]. }
  assert (FI' : forall k u, In (k, u) (a_tables d) -> Forall (row_fits u) (D' k)).
  { intros k u Hu. unfold D', with_table. destruct (String.eqb_spec k n) as [->|]; [|now apply FI]. now rewrite <- (same_table d n t u WF Hn Hu). }
  assert (RE' : realises conv strict d db').
  { intros k u Hu. rewrite G. destruct (String.eqb_spec k n) as [->|]; [|now apply RE]. rewrite <- (same_table d n t u WF Hn Hu).
    eexists. split; [reflexivity|]. split; [exact TI|]. apply (rows_are_ok t b l rs TI F RS). destruct WF as [_ W]. now destruct (W n t Hn) as [_ [? _]]. }
  assert (OT' : forall k c, mget k db' = Some c -> has_table d k \/ b_fks c = []).
  { intros k c. rewrite G. destruct (String.eqb_spec k n) as [->|]; [left; now exists t|apply OT]. }
  unfold settle. rewrite ES. cbv zeta. change (mput n (with_rows b rs) db) with db'.
  pose proof (keys_iff t b l rs TI F RS) as KI.
  pose proof (refs_iff d D' db' n SD' WF RE' RK HR' FI' OT') as RI.
  destruct (keys_ok veq (with_rows b rs)) eqn:KO; cbn [andb].
  - destruct (references_hold veq db' n) eqn:RH.
    + left. exists db'. split; [reflexivity|]. split; [|intros k Nk; rewrite G; now apply String.eqb_neq in Nk; rewrite Nk].
      constructor; try assumption. constructor.
      * intros k u c i j r s x y Hu Hc K. destruct (String.eqb_spec k n) as [->|Ne].
        -- rewrite <- (same_table d n t u WF Hn Hu) in Hc. unfold D', with_table. rewrite String.eqb_refl. now apply (proj1 KI eq_refl c).
        -- unfold D', with_table. apply String.eqb_neq in Ne. rewrite Ne. now apply (LK k u c).
      * intros k u c f r x Hu Hc Hf Hr Hx. destruct (String.eqb_spec k n) as [->|Ne]; [now apply (proj1 RI eq_refl n u c f r x); auto|].
        destruct (String.eqb_spec (fk_table f) n) as [En|Ne2]; [now apply (proj1 RI eq_refl k u c f r x); auto|].
        unfold D', with_table in *. apply String.eqb_neq in Ne, Ne2. rewrite Ne in Hr. rewrite Ne2. now apply (LR k u c f r x).
    + right. split; [reflexivity|]. intros [_ LR']. assert (X : false = true); [|discriminate]. apply RI. intros k u c f r x Hu Hc Hf _. now apply (LR' k u c f r x).
  - right. split; [reflexivity|]. intros [LK' _]. assert (X : false = true); [|discriminate]. apply KI. intros c i j r s x y Hc K L Hi Hj.
    apply (LK' n t c i j r s x y Hn Hc K L); unfold D', with_table; now rewrite String.eqb_refl.
Qed.
End Proofs.
