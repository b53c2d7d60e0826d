(** Running the operations of a difference one after the other. *)
From Coq Require Import DecimalString.
From Verif Require Import Base SqlVal Sql Query QuerySpec Adb AdbSpec AdbProofs Literal LiteralSpec LiteralProofs LexProofs
  Ddl DdlProofs DdlSpec SqliteDdl SqliteDdlProofs DdlFine Backend BackendSpec SqliteSem MigrateSpec MigrateProofs.

Lemma run_app conv veq read xs : forall ys db,
  run conv veq read db (xs ++ ys) = match run conv veq read db xs with Some db' => run conv veq read db' ys | None => None end.
Proof. induction xs as [|x xs IH]; intros ys db; [reflexivity|]. cbn. destruct (exec conv veq read db x); [apply IH|reflexivity]. Qed.
Lemma Forall2_mono {A B} (P Q : A -> B -> Prop) l l' : (forall x y, In x l -> In y l' -> P x y -> Q x y) -> Forall2 P l l' -> Forall2 Q l l'.
Proof.
  intros H F. induction F as [|x y l l' p F IH]; constructor.
  - apply H; [now left|now left|exact p].
  - apply IH. intros a b Ha Hb. apply H; now right.
Qed.
Lemma Forall2_comp {A B C} (P : A -> B -> Prop) (Q : B -> C -> Prop) l m n :
  Forall2 P l m -> Forall2 Q m n -> Forall2 (fun x z => exists y, In x l /\ In y m /\ In z n /\ P x y /\ Q y z) l n.
Proof.
  intros F. revert n. induction F as [|x y l m p F IH]; intros n G; inversion G as [|? z ? n' q G']; subst; constructor.
  - exists y. cbn. auto 6.
  - eapply Forall2_mono; [|apply IH, G']. intros a b Ha Hb (c & H1 & H2 & H3 & H4 & H5). exists c. cbn. auto 8.
Qed.

Section Default.
Variable conv : bool -> list string -> lvalue -> option lvalue.
Variable read : bool -> string -> f64.
Variable show : f64 -> string.
Variable strict : bool.
Hypothesis Hs : storage_ok conv strict read.
Hypothesis Hshow : display_ok read show.

Lemma int_lit z : (- 9223372036854775808 <= z <= 9223372036854775807)%Z -> lit_value read (num_lit (dec z)) = Some (LInteger z).
Proof using.
  intros R. unfold dec, NilEmpty.string_of_int. pose proof (of_to_int z) as E. destruct (Z.to_int z) as [u|u]; cbn in E.
  - rewrite digits_num by apply digits_uint. cbn [lit_value]. rewrite number_of_uint, E.
    destruct (Z.leb_spec (-9223372036854775808) z); [|lia]. destruct (Z.leb_spec z 9223372036854775807); [|lia]. reflexivity.
  - cbn [num_lit lit_value]. rewrite number_of_uint. cbv zeta. rewrite E.
    destruct (Z.leb_spec (-9223372036854775808) z); [|lia]. destruct (Z.leb_spec z 9223372036854775807); [|lia]. reflexivity.
Qed.
Lemma num_lit_of neg n : numeral n -> num_lit ((if neg : bool then "-" else "") ++ n) = LitNum neg n.
Proof using.
  intros (c & m & -> & Hc & _). destruct neg; [reflexivity|]. cbn [append]. destruct c as [[] [] [] [] [] [] [] []]; try reflexivity; discriminate Hc.
Qed.
Lemma default_stored c v : column_default c = Ok v -> readable_literal v -> default_exact c ->
  exists x w, lit_value read (lit_of show v) = Some x /\ conv strict [word c] x = Some w /\ sqlite_write v = Ok w.
Proof.
  intros D R X. destruct (X v D) as [X1 X2]. clear X.
  destruct v as [|b|i|i|r|s|b|j|dt|t|ty da]; cbn [readable_literal] in R; try contradiction; cbn [lit_of sqlite_write].
  - exists LNull, LNull. split; [reflexivity|]. split; [apply Hs|reflexivity].
  - destruct (X2 TBool eq_refl) as (k & [= <-] & ->). exists (LInteger (if b then 1 else 0)), (LInteger (if b then 1 else 0)).
    split; [now destruct b|]. split; [apply (so_integer _ _ _ Hs)|reflexivity].
  - destruct (X2 TInt eq_refl) as (k & [= <-] & ->). exists (LInteger i), (LInteger i).
    split; [now apply int_lit|]. split; [apply (so_integer _ _ _ Hs)|reflexivity].
  - destruct (X2 TBigInt eq_refl) as (k & [= <-] & ->). exists (LInteger i), (LInteger i).
    split; [now apply int_lit|]. split; [apply (so_integer _ _ _ Hs)|reflexivity].
  - destruct (X2 TReal eq_refl) as (k & [= <-] & ->). destruct (proj1 Hshow r R) as (neg & n & E & N & Rd). rewrite E, (num_lit_of neg n N).
    cbn [lit_value]. rewrite Rd. destruct (number_of n) as [z|] eqn:En.
    + cbv zeta. match goal with |- context [if ?x then _ else _] => destruct x end.
      * exists (LInteger (if neg then - z else z)), (LReal r). split; [now destruct neg|]. split; [|reflexivity].
        rewrite <- Rd. apply (so_whole _ _ _ Hs); [exact En|]. intros -> ->.
        destruct (so_minus_zero _ _ _ Hs n En) as [Z1 Z2]. rewrite Rd in Z1, Z2. destruct X1; contradiction.
      * exists (LReal r), (LReal r). split; [reflexivity|]. split; [now apply (so_real _ _ _ Hs)|reflexivity].
    + exists (LReal r), (LReal r). split; [reflexivity|]. split; [now apply (so_real _ _ _ Hs)|reflexivity].
  - destruct (X2 TText eq_refl) as (k & [= <-] & ->). exists (LText s), (LText s).
    split; [reflexivity|]. split; [apply (so_text _ _ _ Hs)|reflexivity].
  - destruct (X2 TBlob eq_refl) as (k & [= <-] & ->). exists (LBlob b), (LBlob b).
    split; [cbn; now rewrite (proj1 (hex_roundtrip b))|]. split; [apply (so_blob _ _ _ Hs)|reflexivity].
Qed.
End Default.

Section Inv.
Variable conv : bool -> list string -> lvalue -> option lvalue.
Variable veq : lvalue -> lvalue -> bool.
Variable read : bool -> string -> f64.
Variable show : f64 -> string.
Variable strict : bool.
Hypothesis Hs : storage_ok conv strict read.
Hypothesis Hshow : display_ok read show.
Variables old new : ADB.
Hypothesis Wo : wf_schema old.
Hypothesis Wn : wf_schema new.
Variable db0 : edb.
Hypothesis R0 : realises conv strict old db0.
Hypothesis Ex : forall n c, added_column old new n c -> default_exact c.
Hypothesis Un : added_unreferring old new.
Hypothesis Tm : no_temporary new db0.

Definition row_rel (t tb : ATable) (r r' : row) : Prop :=
  forall c, In c (t_cols tb) -> exists v', get r' (c_name c) = Some v'
    /\ (forall c0, In c0 (t_cols t) -> c_name c0 = c_name c ->
          exists v, get r (c_name c) = Some v /\ conv strict [word c] v = Some v')
    /\ (~ has_column t (c_name c) -> default_held c v').
Record inv (cur : ADB) (db : edb) : Prop := {
  v_wf : wf_schema cur;
  v_db : msorted db;
  v_real : forall n tb, get_table cur n = Some tb -> exists b, mget n db = Some b /\ table_is strict tb b /\ rows_are conv strict tb b;
  v_cols : forall n t tb c, In (n, t) (a_tables old) -> get_table cur n = Some tb -> In c (t_cols tb) ->
    In c (t_cols t) \/ exists u, In (n, u) (a_tables new) /\ In c (t_cols u);
  v_rows : forall n t tb b0 b, In (n, t) (a_tables old) -> get_table cur n = Some tb -> mget n db0 = Some b0 -> mget n db = Some b ->
    Forall2 (row_rel t tb) (b_rows b0) (b_rows b);
  v_new : forall n tb b, ~ has_table old n -> get_table cur n = Some tb -> mget n db = Some b -> b_rows b = [] /\ In (n, tb) (a_tables new);
  v_gone : forall n, has_table old n -> get_table cur n = None -> mget n db = None;
  v_other : forall n, ~ has_table old n -> get_table cur n = None -> mget n db = mget n db0;
  v_tmp : forall m b f n, mget m db = Some b -> In f (b_fks b) -> fk_table f <> temporary n }.

(** A step that changes one table that both schemas have. *)
Lemma inv_table cur db db' n t u tb tb' b b' :
  inv cur db -> In (n, t) (a_tables old) -> In (n, u) (a_tables new) ->
  get_table cur n = Some tb -> mget n db = Some b ->
  msorted db' -> (forall m, m <> n -> mget m db' = mget m db) -> mget n db' = Some b' ->
  forall op, wf_op op -> op_col_table op = Some n -> op_on_table op tb = tb' ->
  table_is strict tb' b' -> rows_are conv strict tb' b' ->
  (forall c, In c (t_cols tb') -> In c (t_cols tb) \/ In c (t_cols u)) ->
  (forall b0, mget n db0 = Some b0 -> Forall2 (row_rel t tb) (b_rows b0) (b_rows b) -> Forall2 (row_rel t tb') (b_rows b0) (b_rows b')) ->
  (forall f m, In f (b_fks b') -> fk_table f <> temporary m) ->
  inv (transform_with cur op) db'.
Proof using Wo.
  intros V A B G Gb Sd' Oth Gb' op Wop Oop <- T R C Rw Fk. pose proof (transform_cols cur n tb op G Oop (proj1 (v_wf _ _ V))) as [G1 G2].
  constructor.
  - apply transform_wf; [exact Wop|apply V].
  - exact Sd'.
  - intros m x Hx. destruct (string_dec m n) as [->|N].
    + rewrite G1 in Hx. injection Hx as <-. eauto.
    + rewrite G2 in Hx by exact N. rewrite Oth by exact N. now apply (v_real _ _ V).
  - intros m t1 x c A1 Hx Hc. destruct (string_dec m n) as [->|N].
    + rewrite G1 in Hx. injection Hx as <-. destruct (C c Hc) as [H|H]; [now apply (v_cols _ _ V n t1 tb)|]. right. eauto.
    + rewrite G2 in Hx by exact N. now apply (v_cols _ _ V m t1 x).
  - intros m t1 x b0 b1 A1 Hx H0 H1. destruct (string_dec m n) as [->|N].
    + rewrite G1 in Hx. injection Hx as <-. rewrite Gb' in H1. injection H1 as <-. rewrite (one_table _ _ _ _ Wo A1 A).
      apply Rw; [exact H0|]. now apply (v_rows _ _ V n).
    + rewrite G2 in Hx by exact N. rewrite Oth in H1 by exact N. now apply (v_rows _ _ V m).
  - intros m x b1 No Hx H1. destruct (string_dec m n) as [->|N]; [exfalso; apply No; now exists t|].
    rewrite G2 in Hx by exact N. rewrite Oth in H1 by exact N. now apply (v_new _ _ V).
  - intros m Ho Hx. destruct (string_dec m n) as [->|N]; [rewrite G1 in Hx; discriminate|].
    rewrite G2 in Hx by exact N. rewrite Oth by exact N. now apply (v_gone _ _ V).
  - intros m Ho Hx. destruct (string_dec m n) as [->|N]; [rewrite G1 in Hx; discriminate|].
    rewrite G2 in Hx by exact N. rewrite Oth by exact N. now apply (v_other _ _ V).
  - intros m b1 f k H1 Hf. destruct (string_dec m n) as [->|N].
    + rewrite Gb' in H1. injection H1 as <-. now apply Fk.
    + rewrite Oth in H1 by exact N. now apply (v_tmp _ _ V m b1).
Qed.

Lemma new_refs n u c f m : In (n, u) (a_tables new) -> In c (t_cols u) -> refers c f -> fk_table f <> temporary m.
Proof using Tm. intros B Hc Hr. eapply (proj2 Tm); eauto. Qed.
Lemma kept_refs cur db n t tb c f m : inv cur db -> In (n, t) (a_tables old) -> get_table cur n = Some tb -> In c (t_cols tb) ->
  refers c f -> fk_table f <> temporary m.
Proof using.
  intros V A G Hc Hr. destruct (v_real _ _ V n tb G) as (b & Gb & (_ & _ & _ & _ & T) & _). apply (v_tmp _ _ V n b f m Gb). apply T. eauto.
Qed.

(** After a rebuild. *)
Lemma rebuilt_rows cur db n t u tb tb' b b0 rows' : inv cur db -> In (n, t) (a_tables old) -> In (n, u) (a_tables new) ->
  get_table cur n = Some tb -> mget n db = Some b -> mget n db0 = Some b0 ->
  (forall c, In c (t_cols tb') -> In c (t_cols tb) \/ (In c (t_cols u) /\ has_column t (c_name c) /\ has_column tb (c_name c))) ->
  Forall2 (copied conv strict (t_cols tb')) (b_rows b) rows' ->
  Forall2 (row_rel t tb) (b_rows b0) (b_rows b) -> Forall2 (row_rel t tb') (b_rows b0) rows'.
Proof.
  intros V A B G Gb G0 C Cp Rw. pose proof (Forall2_comp _ _ _ _ _ Rw Cp) as F. eapply Forall2_mono; [|exact F]. clear F Cp Rw.
  intros r r'' _ _ (r' & Hr & Hr' & _ & Rel & [_ Cp]) c Hc. destruct (Cp c Hc) as (v1 & v2 & X1 & X2 & X3 & _). exists v2. split; [exact X2|].
  destruct (v_real _ _ V n tb G) as (b' & Gb' & _ & Rb). rewrite Gb in Gb'. injection Gb' as <-.
  destruct (C c Hc) as [Hin|(Hu & Ht & Htb)].
  - destruct (Rel c Hin) as (v' & Gv & K1 & K2). assert (v' = v1) by congruence. subst v'.
    assert (v2 = v1). { destruct (Rb r' Hr') as [_ Rb2]. destruct (Rb2 c v1 Hin X1) as [Y _]. congruence. } subst v2.
    split; [exact K1|exact K2].
  - split; [|intros N; contradiction]. intros c0 Hc0 E0.
    destruct Htb as (c1 & Hc1 & E1). destruct (Rel c1 Hc1) as (v' & Gv & K1 & _). rewrite E1 in Gv. assert (v' = v1) by congruence. subst v'.
    destruct (K1 c0 Hc0) as (v & Gr & Cv); [congruence|]. rewrite E1 in Gr. exists v. split; [exact Gr|].
    destruct (v_cols _ _ V n t tb c1 A G Hc1) as [Hold|(u' & B' & Hnew)].
    + destruct (R0 n t A) as (b0' & G0' & _ & Rb0). rewrite G0 in G0'. injection G0' as <-.
      destruct (Rb0 r Hr) as [_ Rb02]. destruct (Rb02 c1 v Hold) as [Y _]; [congruence|]. assert (v1 = v) by congruence. subst v1. exact X3.
    + pose proof (one_table _ _ _ _ Wn B' B). subst u'. assert (c1 = c).
      { destruct (proj2 Wn n u B) as [_ [ND _]]. pose proof (In_col_by_name _ _ ND Hnew) as Y1. pose proof (In_col_by_name _ _ ND Hu) as Y2.
        rewrite E1 in Y1. congruence. }
      subst c1. pose proof (so_again _ _ _ Hs _ _ _ Cv) as Y. congruence.
Qed.

Lemma inv_step cur db db' op : inv cur db -> op_justified old new op -> op_fine cur op ->
  run conv veq read db (op_ast show strict cur op) = Some db' -> inv (transform_with cur op) db'.
Proof.
  intros V J F. destruct op as [t|t|t|n|n c|n cn|n oc nc|t].
  - (* AddTable *) destruct J as [J1 J2]. cbn [op_ast run create_ast exec].
    destruct (create db false (t_name t) (map coldef_of (t_cols t)) (flat_map fk_of (t_cols t)) strict) as [d1|] eqn:E; [|discriminate].
    intros [= <-]. destruct (create_gives strict _ _ _ _ (proj2 (proj2 F)) E) as (G0 & ND & b & -> & T & Rw & _ & _ & Fk).
    assert (Gn : get_table cur (t_name t) = None).
    { destruct (get_table cur (t_name t)) as [x|] eqn:Gx; [|reflexivity]. destruct (v_real _ _ V _ _ Gx) as (b' & Gb' & _). congruence. }
    destruct (transform_table_op cur (AddTable t) (proj1 (v_wf _ _ V)) eq_refl) as (S' & Gt).
    pose proof (v_db _ _ V) as Sd.
    constructor.
    + apply transform_wf; [apply (proj2 Wn _ _ J1)|apply V].
    + now apply mput_sorted.
    + intros m x. rewrite Gt, (mget_mput _ _ _ _ Sd). destruct (keqb_spec m (t_name t)) as [->|N]; [|apply V].
      intros [= <-]. exists b. split; [reflexivity|]. split; [exact T|]. intros r. rewrite Rw. intros [].
    + intros m t1 x c A1. rewrite Gt. destruct (keqb_spec m (t_name t)) as [->|N]; [|now apply (v_cols _ _ V)].
      exfalso. apply J2. now exists t1.
    + intros m t1 x b0 b1 A1. rewrite Gt, (mget_mput _ _ _ _ Sd). destruct (keqb_spec m (t_name t)) as [->|N]; [|now apply (v_rows _ _ V)].
      exfalso. apply J2. now exists t1.
    + intros m x b1 No. rewrite Gt, (mget_mput _ _ _ _ Sd). destruct (keqb_spec m (t_name t)) as [->|N]; [|now apply (v_new _ _ V)].
      intros [= <-] [= <-]. split; [exact Rw|exact J1].
    + intros m Ho. rewrite Gt, (mget_mput _ _ _ _ Sd). destruct (keqb_spec m (t_name t)) as [->|N]; [discriminate|now apply (v_gone _ _ V)].
    + intros m Ho. rewrite Gt, (mget_mput _ _ _ _ Sd). destruct (keqb_spec m (t_name t)) as [->|N]; [discriminate|now apply (v_other _ _ V)].
    + intros m b1 f k. rewrite (mget_mput _ _ _ _ Sd). destruct (keqb_spec m (t_name t)) as [->|N]; [|now apply (v_tmp _ _ V)].
      intros [= <-]. rewrite Fk, in_flat_map. intros (c & Hc & Hf). apply fk_of_In in Hf. now apply (new_refs (t_name t) t c).
  - destruct J.
  - cbn. intros [= <-]. exact V.
  - (* RemoveTable *) destruct J as [J1 J2]. cbn [op_ast run exec]. unfold drop. destruct (mget n db) as [b|] eqn:G; [|discriminate].
    match goal with |- context [if ?x then _ else _] => destruct x end; [discriminate|]. intros [= <-].
    destruct (transform_table_op cur (RemoveTable n) (proj1 (v_wf _ _ V)) eq_refl) as (S' & Gt).
    constructor.
    + apply transform_wf; [exact I|apply V].
    + apply mdel_sorted, V.
    + intros m x. rewrite Gt, mget_mdel. destruct (keqb_spec m n) as [->|N]; [discriminate|apply V].
    + intros m t1 x c A1. rewrite Gt. destruct (keqb_spec m n) as [->|N]; [discriminate|now apply (v_cols _ _ V)].
    + intros m t1 x b0 b1 A1. rewrite Gt, mget_mdel. destruct (keqb_spec m n) as [->|N]; [discriminate|now apply (v_rows _ _ V)].
    + intros m x b1 No. rewrite Gt, mget_mdel. destruct (keqb_spec m n) as [->|N]; [discriminate|now apply (v_new _ _ V)].
    + intros m Ho. rewrite Gt, mget_mdel. destruct (keqb_spec m n) as [->|N]; [reflexivity|now apply (v_gone _ _ V)].
    + intros m Ho. rewrite Gt, mget_mdel. destruct (keqb_spec m n) as [->|N]; [contradiction|now apply (v_other _ _ V)].
    + intros m b1 f k. rewrite mget_mdel. destruct (keqb_spec m n) as [->|N]; [discriminate|now apply (v_tmp _ _ V)].
  - (* AddColumn *) pose proof J as (t & u & A & B & Hc & Nc). destruct F as (Id & Fc & v & Dv & Rv). cbn [op_ast]. rewrite Dv. cbn [run exec].
    destruct (add_col conv read db n (with_default (coldef_of c) (lit_of show v))) as [d1|] eqn:E; [|discriminate]. intros [= <-].
    destruct (get_table cur n) as [tb|] eqn:G.
    2: { exfalso. unfold add_col in E. rewrite (v_gone _ _ V n) in E; [discriminate|now exists t|exact G]. }
    destruct (v_real _ _ V n tb G) as (b & Gb & T & R).
    destruct (add_gives conv read strict Hs db n tb c _ b d1 Gb T R Fc (Un n c J) E) as (Nh & b' & x & -> & T' & R' & Fk & Lx & _ & Rows).
    destruct (default_stored conv read show strict Hs Hshow c v Dv Rv (Ex n c J)) as (x' & w & Lx' & Cw & Sw).
    rewrite Lx in Lx'. injection Lx' as <-. specialize (Rows w Cw).
    pose proof (v_db _ _ V) as Sd.
    apply (inv_table cur db (mput n b' db) n t u tb (replace_column tb c) b b' V A B G Gb); try assumption; try reflexivity.
    + now apply mput_sorted.
    + intros m N. rewrite (mget_mput _ _ _ _ Sd). now destruct (keqb_spec m n).
    + apply mget_mput_eq.
    + cbn. intros dv. exact (proj2 (proj2 (proj2 Wn n u B)) _ dv Hc).
    + intros d Hd. cbn in Hd. apply replace_col_In in Hd as [->|Hd]; auto.
    + intros b0 H0 Rw. pose proof (Forall2_comp _ _ _ _ _ Rw Rows) as F2. eapply Forall2_mono; [|exact F2].
      intros r r'' _ _ (r' & _ & Hr' & _ & Rel & ->) d Hd. cbn in Hd. rewrite replace_new in Hd by (now rewrite <- has_column_names).
      rewrite get_app. apply in_app_iff in Hd as [Hd|[<-|[]]].
      * destruct (Rel d Hd) as (v' & Gv & K). exists v'. now rewrite Gv.
      * assert (Gn : get r' (c_name c) = None).
        { destruct (get r' (c_name c)) eqn:Y; [|reflexivity]. exfalso. apply Nh. apply (R r' Hr'). congruence. }
        rewrite Gn. exists w. split; [unfold get; cbn; now rewrite String.eqb_refl|]. split.
        -- intros c0 Hc0 E0. exfalso. apply Nc. exists c0. auto.
        -- intros _. exists v. auto.
    + intros f m. rewrite Fk. now apply (v_tmp _ _ V n).
  - (* RemoveColumn *) pose proof J as (t & u & A & B & Ho & Nc). destruct F as (Id & Idc & tb & G & En & Hin & Ft).
    cbn [op_ast]. rewrite G. destruct (v_real _ _ V n tb G) as (b & Gb & T & R). pose proof (v_db _ _ V) as Sd.
    destruct (col_by_name (t_cols tb) cn) as [c1|] eqn:Ec.
    2: { exfalso. apply in_map_iff in Hin as (c1 & <- & Hc1). unfold col_by_name in Ec. pose proof (find_none _ _ Ec c1 Hc1) as Y. cbn in Y. now rewrite String.eqb_refl in Y. }
    assert (Hc1 : In c1 (t_cols tb) /\ c_name c1 = cn).
    { unfold col_by_name in Ec. split; [eapply find_some, Ec|]. apply find_some in Ec as [_ Y]. now apply String.eqb_eq in Y. }
    assert (Rel : forall r r', row_rel t tb r r' -> forall r'', (forall d, In d (t_cols (remove_column tb cn)) -> get r'' (c_name d) = get r' (c_name d)) -> row_rel t (remove_column tb cn) r r'').
    { intros r r' Rl r'' Eq d Hd. pose proof Hd as Hd'. cbn in Hd'. apply filter_In in Hd' as [Hd' _]. rewrite (Eq d Hd). now apply Rl. }
    destruct (c_ref c1) as [rf|] eqn:Er.
    + intros E.
      destruct (rebuild_gives conv veq read strict Hs db n tb (remove_column (rename tb (tmp_table_name n)) cn) b db' Sd Gb T) as (Sd' & Oth & b' & Gb' & T' & R' & Fk & Cp).
      * intros m bm f Gm Hf. now apply (v_tmp _ _ V m bm).
      * intros d f Hd Hr. cbn in Hd. apply filter_In in Hd as [Hd _]. now apply (kept_refs cur db n t tb d f n).
      * exact En.
      * reflexivity.
      * apply Ft.
      * exact E.
      * apply (inv_table cur db db' n t u tb (remove_column tb cn) b b' V A B G Gb); try assumption; try reflexivity.
        -- intros d Hd. cbn in Hd. apply filter_In in Hd as [Hd _]. now left.
        -- intros b0 H0 Rw. apply (rebuilt_rows cur db n t u tb (remove_column tb cn) b b0 (b_rows b') V A B G Gb H0); try assumption.
           intros d Hd. cbn in Hd. apply filter_In in Hd as [Hd _]. now left.
        -- intros f m. rewrite Fk, in_flat_map. intros (d & Hd & Hf). apply fk_of_In in Hf. cbn in Hd. apply filter_In in Hd as [Hd _].
           now apply (kept_refs cur db n t tb d f m).
    + cbn [run exec]. destruct (drop_col db n cn) as [d1|] eqn:E; [|discriminate]. intros [= <-].
      destruct (drop_col_gives conv strict db n tb cn b d1 Gb T R) as (b' & -> & T' & R' & Fk & Rows).
      * intros d Hd Ed. destruct (v_wf _ _ V) as [_ W]. destruct (W n tb (mget_In _ _ _ G)) as [_ [ND _]].
        pose proof (In_col_by_name _ _ ND Hd) as Y. rewrite Ed, Ec in Y. congruence.
      * exact E.
      * apply (inv_table cur db (mput n b' db) n t u tb (remove_column tb cn) b b' V A B G Gb); try assumption; try reflexivity.
        -- now apply mput_sorted.
        -- intros m N. rewrite (mget_mput _ _ _ _ Sd). now destruct (keqb_spec m n).
        -- apply mget_mput_eq.
        -- intros d Hd. cbn in Hd. apply filter_In in Hd as [Hd _]. now left.
        -- intros b0 H0 Rw. pose proof (Forall2_comp _ _ _ _ _ Rw Rows) as F2. eapply Forall2_mono; [|exact F2].
           intros r r'' _ _ (r' & _ & _ & _ & Rl & Eq). apply (Rel r r' Rl). intros d Hd. cbn in Hd. apply filter_In in Hd as [_ Hd].
           apply Eq. intros X. rewrite X, String.eqb_refl in Hd. discriminate.
        -- intros f m. rewrite Fk. now apply (v_tmp _ _ V n).
  - (* ChangeColumn *) pose proof J as (t & u & A & B & Ho & Hc & En & Ns). destruct F as (tb & G & Et & Ft).
    cbn [op_ast]. rewrite G. destruct (v_real _ _ V n tb G) as (b & Gb & T & R). pose proof (v_db _ _ V) as Sd. intros E.
    assert (Href : forall d f m, In d (replace_col (t_cols tb) nc) -> refers d f -> fk_table f <> temporary m).
    { intros d f m Hd Hr. apply replace_col_In in Hd as [->|Hd]; [now apply (new_refs n u nc)|now apply (kept_refs cur db n t tb d f m)]. }
    assert (Htb : has_column tb (c_name nc)).
    { (* the copy reads the column from the table as it is *)
      cbn [rebuild_ast run exec create_ast] in E. cbn [t_name t_cols replace_column rename] in E.
      destruct (create db false (tmp_table_name n) _ _ strict) as [d1|] eqn:E1; [|discriminate]. cbn [run exec] in E.
      unfold copy in E. destruct (create_gives strict _ _ (replace_column tb nc) _ (proj2 (proj2 Ft)) E1) as (G0 & ND & b1 & -> & _).
      rewrite mget_mput_eq, Et, (mget_mput _ _ _ _ Sd) in E. destruct (keqb_spec n (tmp_table_name n)) as [X|_]; [rewrite <- X in G0; congruence|].
      rewrite Gb in E. match type of E with context [if ?x && ?y then _ else _] => destruct x eqn:Ex'; [|discriminate E] end.
      rewrite forallb_forall in Ex'. specialize (Ex' (c_name nc)). cbv beta in Ex'.
      assert (Y : is_some (col_at b (c_name nc)) = true) by (apply Ex', replace_col_names_In; now right).
      apply (table_names strict tb b (c_name nc) T). destruct (col_at b (c_name nc)) as [k|] eqn:Ek; [|discriminate Y].
      apply (col_at_iff b _ k) in Ek as [Hk <-]; [now apply in_map|]. apply T. }
    destruct (rebuild_gives conv veq read strict Hs db n tb (replace_column (rename tb (tmp_table_name n)) nc) b db' Sd Gb T) as (Sd' & Oth & b' & Gb' & T' & R' & Fk & Cp).
    + intros m bm f Gm Hf. now apply (v_tmp _ _ V m bm).
    + intros d f Hd Hr. now apply (Href d f n).
    + exact Et.
    + reflexivity.
    + apply Ft.
    + exact E.
    + apply (inv_table cur db db' n t u tb (replace_column tb nc) b b' V A B G Gb); try assumption; try reflexivity.
      * cbn. intros dv. exact (proj2 (proj2 (proj2 Wn n u B)) _ dv Hc).
      * intros d Hd. cbn in Hd. apply replace_col_In in Hd as [->|Hd]; auto.
      * intros b0 H0 Rw. apply (rebuilt_rows cur db n t u tb (replace_column tb nc) b b0 (b_rows b') V A B G Gb H0); try assumption.
        intros d Hd. cbn in Hd. apply replace_col_In in Hd as [->|Hd]; [|now left]. right. split; [exact Hc|]. split; [now exists oc|exact Htb].
      * intros f m. rewrite Fk, in_flat_map. intros (d & Hd & Hf). apply fk_of_In in Hf. now apply (Href d f m).
  - cbn. intros [= <-]. exact V.
Qed.

Lemma inv_all ops : forall cur db db', inv cur db -> (forall op, In op ops -> op_justified old new op) -> ops_fine cur ops ->
  run conv veq read db (ops_ast show strict cur ops) = Some db' -> inv (transform_all cur ops) db'.
Proof.
  induction ops as [|op ops IH]; intros cur db db' V J F; [intros [= <-]; exact V|]. cbn [ops_ast]. rewrite run_app.
  destruct (run conv veq read db (op_ast show strict cur op)) as [d1|] eqn:E; [|discriminate]. intros H. destruct F as [Fo F].
  cbn. apply (IH _ d1); [|intros o Ho; apply J; now right|exact F|exact H].
  apply (inv_step cur db d1 op V); [apply J; now left|exact Fo|exact E].
Qed.
End Inv.
