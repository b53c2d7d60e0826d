(** Rows that stay through changes of schema. *)
From Verif Require Import Base SqlVal Sql SqlStmt Query QuerySpec Stmt StmtSpec Adb AdbSpec AdbProofs Literal LiteralSpec Ddl DdlSpec
  Backend BackendSpec SqliteSem MigrateSpec SqliteData DataCalls StoredSpec RenderProofs
  MigrateProofs StoredRel StoredProofs StoredMain StoredDeploy FsSpec Chain Deploy DeploySpec DeployWalk CarriedSpec.

Section Step.
Variable json_text : string -> option string.
Variable E : engine.
Variable veq : lvalue -> lvalue -> bool.
Variable conv : bool -> list string -> lvalue -> option lvalue.
Variable strict : bool.
Hypothesis CS : compares_stored E veq.

Lemma widened_alike ty v l : sqlite_write v = Ok l -> sqlite_write (widened ty v) = Ok l.
Proof. destruct v, ty; cbn; auto. Qed.
Lemma field_names n (r : Sql.row) v : field n r = Some v -> In n (map fst r).
Proof.
  induction r as [|[m x] r IH]; [discriminate|]. cbn. destruct (String.eqb_spec m n) as [->|N]; [now left|]. intros H. right. auto.
Qed.
Lemma column_unique t c c' : NoDup (map c_name (t_cols t)) -> In c (t_cols t) -> In c' (t_cols t) -> c_name c = c_name c' -> c = c'.
Proof.
  intros ND. induction (t_cols t) as [|a cs IH]; [intros []|]. cbn in ND. inversion ND as [|? ? N1 N2]; subst.
  intros [->|H] [->|H'] En; auto; exfalso; apply N1; [rewrite En|rewrite <- En]; now apply in_map.
Qed.
Lemma has_column_dec t n : {has_column t n} + {~ has_column t n}.
Proof.
  destruct (in_dec string_dec n (map c_name (t_cols t))) as [H|H]; [left; now apply has_column_names|right; now rewrite has_column_names].
Defined.
Lemma In_get (y : row) n l : NoDup (map fst y) -> In (n, l) y -> get y n = Some l.
Proof.
  induction y as [|[m k] y IH]; [intros _ []|]. cbn. intros ND H. inversion ND as [|? ? N1 N2]; subst. unfold get. cbn.
  destruct (String.eqb_spec m n) as [->|Ne].
  - destruct H as [[= ->]|H]; [reflexivity|]. exfalso. apply N1. now apply (in_map fst) in H.
  - destruct H as [[= -> _]|H]; [contradiction|]. now apply IH.
Qed.
Lemma Forall2_exists {A B} (P : A -> B -> Prop) l : (forall x, In x l -> exists y, P x y) -> exists m, Forall2 P l m.
Proof.
  induction l as [|x l IH]; intros H; [exists []; constructor|]. destruct (H x) as (y & Hy); [now left|].
  destruct IH as (m & Hm); [intros; apply H; now right|]. exists (y :: m). now constructor.
Qed.

(** One row. *)
Lemma row_carried old new n t u r y y' b' :
  wf_schema old -> wf_schema new -> gentle json_text old new -> In (n, t) (a_tables old) -> In (n, u) (a_tables new) ->
  row_fits json_text t r -> row_is r y -> row_kept conv strict t u y y' ->
  rows_are conv strict u b' -> In y' (b_rows b') ->
  exists r', row_after t u r r' /\ row_is r' y' /\ row_fits json_text u r'.
Proof.
  intros WO WN GE Ht Hu RF RI RK RA Hy'. destruct (RA y' Hy') as [[ND NM] SV]. pose proof (proj2 (proj2 WN n u Hu)) as [NDu _].
  pose proof (proj2 (proj2 WO n t Ht)) as [NDt _]. destruct RF as (RD & RN & RV).
  set (P := fun (q : string * lvalue) (p : string * SqlVal) => fst p = fst q /\ sqlite_write (snd p) = Ok (snd q)
     /\ given_fits json_text u (fst p) (snd p)
     /\ forall c, In c (t_cols u) -> c_name c = fst q ->
        (forall v ty, has_column t (c_name c) -> field (c_name c) r = Some v -> is_kind c ty -> snd p = widened ty v)
        /\ (~ has_column t (c_name c) -> exists v ty, column_default c = Ok v /\ is_kind c ty /\ snd p = widened ty v)).
  destruct (Forall2_exists P y') as (r' & F).
  { intros [m l] Hq. pose proof (In_get y' m l ND Hq) as Gm.
    assert (Hm : has_column u m) by (apply NM; congruence). destruct Hm as (c & Hc & En).
    destruct (RK c Hc) as (v' & Gv & Kold & Knew). rewrite En, Gm in Gv. injection Gv as <-.
    destruct (has_column_dec t (c_name c)) as [(c0 & Hc0 & E0)|Nt].
    - destruct (Kold c0 Hc0 E0) as (l0 & G0 & _ & Same).
      pose proof (row_is_get (c_name c) r y RI) as X. rewrite G0 in X. destruct (field (c_name c) r) as [v|] eqn:Fv; [|destruct X].
      pose proof (field_pair _ _ _ Fv) as Pv. rewrite Forall_forall in RV. destruct (RV _ Pv) as (c1 & Hc1 & E1 & ty & K1 & OK & VO & NC & FI & NU). cbn [fst snd] in *.
      assert (c1 = c0) by (apply (column_unique t); auto; congruence). subst c1.
      destruct (ge_kind _ _ _ GE n t u c0 c ty Ht Hu Hc0 Hc E0 K1) as (ty' & K' & W).
      assert (Ew : word c0 = word c).
      { unfold word. unfold is_kind in *. rewrite K1, K'. destruct W as [->|[-> ->]]; reflexivity. }
      rewrite (Same Ew) in *. exists (m, widened ty' v). unfold P. cbn [fst snd]. split; [reflexivity|]. split; [now apply widened_alike|]. split.
      + exists c. split; [exact Hc|]. split; [exact En|]. exists ty'. split; [exact K'|]. split; [|split; [|split; [|split]]].
        * destruct OK as [->|OK]; [left; now destruct ty'|]. destruct W as [->|[-> ->]].
          -- right. destruct v, ty; try discriminate OK; exact OK.
          -- right. destruct v; try discriminate OK. reflexivity.
        * destruct v, ty'; cbn in VO |- *; auto; try lia.
        * intros (a & x & Ex). destruct v, ty'; try discriminate Ex; apply NC; eexists _, _; reflexivity.
        * intros z Ez. destruct v, ty'; try discriminate Ez; now apply FI.
        * intros Ez. assert (v = VNull) as -> by (destruct v, ty'; try discriminate Ez; reflexivity).
          destruct (NU eq_refl) as [_ Npk]. cbn in X. injection X as <-.
          destruct (SV c LNull Hc) as [_ Nl]; [rewrite En; exact Gm|]. split.
          -- destruct (c_nullable c); [reflexivity|]. now elim (Nl eq_refl).
          -- destruct (c_pk c) eqn:Pk; [|reflexivity]. destruct (ge_key _ _ _ GE n t u c0 c Ht Hu Hc0 Hc E0) as [Kp _]. rewrite (Kp Pk) in Npk. discriminate.
      + intros c2 Hc2 E2. assert (c2 = c) by (apply (column_unique u); auto; congruence). subst c2. split.
        * intros v2 ty2 _ F2 K2. rewrite Fv in F2. injection F2 as <-. unfold is_kind in *. rewrite K' in K2. now injection K2 as <-.
        * intros N. exfalso. apply N. now exists c0.
    - destruct (Knew Nt) as (v & Dv & Wv).
      assert (AD : added_column old new n c) by (exists t, u; auto).
      destruct (ge_added _ _ _ GE n c AD) as (_ & _ & _ & ty & Kty & TK). exists (m, widened ty v). unfold P. cbn [fst snd]. split; [reflexivity|]. split; [now apply widened_alike|]. split.
      + exists c. auto.
      + intros c2 Hc2 E2. assert (c2 = c) by (apply (column_unique u); auto; congruence). subst c2. split; [|intros _; exists v, ty; auto].
        intros ? ? H. contradiction. }
  assert (RI' : row_is r' y').
  { unfold row_is. clear -F. induction F as [|q p y' r' (H1 & H2 & _) F IH]; constructor; auto. }
  assert (EN : map fst r' = map fst y').
  { clear -F. induction F as [|q p y' r' (H1 & _) F IH]; [reflexivity|]. cbn. now rewrite H1, IH. }
  assert (NR : forall m, In m (map fst r') <-> has_column u m).
  { intros m. rewrite EN, <- NM. split; [apply get_name|]. intros H. destruct (get y' m) as [l|] eqn:G; [|congruence].
    unfold get in G. destruct (find _ y') as [q|] eqn:Fq; [|discriminate]. apply find_some in Fq as [Hq Eq]. apply String.eqb_eq in Eq. rewrite <- Eq. now apply in_map. }
  exists r'. split; [|split; [exact RI'|]].
  - split; [exact NR|]. intros c Hc. assert (In (c_name c) (map fst r')) as Hn by (apply NR; now exists c).
    assert (exists p, In p r' /\ fst p = c_name c /\ field (c_name c) r' = Some (snd p) /\ exists q, P q p) as (p & Hp & Ep & Fp & q & Eq & _ & _ & Q).
    { clear -F Hn. induction F as [|q p y' r' Hq F IH]; [destruct Hn|]. destruct p as [m v]. cbn [fst map In] in *. cbn [field].
      destruct (String.eqb_spec m (c_name c)) as [->|N].
      - exists (c_name c, v). repeat split; [now left|]. now exists q.
      - destruct Hn as [E|Hn]; [contradiction|]. destruct (IH Hn) as (p & Hp & R). exists p. split; [now right|exact R]. }
    destruct (Q c Hc) as [Q1 Q2]; [congruence|]. rewrite Fp. split.
    + intros v ty H1 H2 H3. f_equal. now apply Q1.
    + intros N. destruct (Q2 N) as (v & ty & H1 & H2 & ->). exists v, ty. auto.
  - split; [now rewrite EN|]. split; [exact NR|]. clear -F. induction F as [|q p y' r' (_ & _ & G & _) F IH]; constructor; auto.
Qed.

(** The keys and references of rows that went along. *)
Definition held (d : ADB) (D : Sql.db) (db : edb) : Prop :=
  realises conv strict d db /\ has_rows D db
  /\ (forall n t, In (n, t) (a_tables d) -> Forall (row_fits json_text t) (D n))
  /\ (forall n b, mget n db = Some b -> has_table d n \/ b_fks b = [])
  /\ legal E d D.
Lemma keeps_held d D db : keeps json_text E conv strict d D db -> held d D db.
Proof. intros []. unfold held. auto 10. Qed.
Lemma held_keeps d D db : msorted db -> held d D db -> keeps json_text E conv strict d D db.
Proof. intros S (H1 & H2 & H3 & H4 & H5). now constructor. Qed.

Lemma choose_rows (l : list (string * ATable)) (P : string -> ATable -> list Sql.row -> Prop) : NoDup (map fst l) ->
  (forall n u, In (n, u) l -> exists R, P n u R) -> exists f : string -> list Sql.row, forall n u, In (n, u) l -> P n u (f n).
Proof.
  induction l as [|[m x] l IH]; intros ND H; [exists (fun _ => []); intros n u []|]. cbn in ND. inversion ND as [|? ? N1 N2]; subst.
  destruct IH as (f & Hf); [assumption|intros; apply H; now right|]. destruct (H m x) as (R & HR); [now left|].
  exists (fun n => if String.eqb n m then R else f n). intros n u [[= <- <-]|Hn]; [now rewrite String.eqb_refl|].
  destruct (String.eqb_spec n m) as [->|_]; [|auto]. exfalso. apply N1. now apply (in_map fst) in Hn.
Qed.
Lemma Forall2_nth {A B} (R : A -> B -> Prop) l m i y : Forall2 R l m -> nth_error m i = Some y -> exists x, nth_error l i = Some x /\ R x y.
Proof.
  intros F. revert i. induction F as [|a b l m H F IH]; intros [|i] Hi; try discriminate; cbn in Hi |- *; [injection Hi as <-; eauto|auto].
Qed.
Lemma equal_widened a b x y : (exists l, sqlite_write x = Ok l) -> (exists l, sqlite_write y = Ok l) ->
  equal E (widened a x) (widened b y) <-> equal E x y.
Proof.
  intros (l & Hl) (k & Hk). unfold equal. rewrite (cmp_alike E veq CS CEq (widened a x) x (widened b y) y); [reflexivity| |].
  - exists l. split; [now apply widened_alike|exact Hl].
  - exists k. split; [now apply widened_alike|exact Hk].
Qed.
Lemma fits_field t r n v : row_fits json_text t r -> field n r = Some v -> (exists l, sqlite_write v = Ok l)
  /\ exists c ty, In c (t_cols t) /\ c_name c = n /\ is_kind c ty.
Proof.
  intros (_ & _ & F) Hv. rewrite Forall_forall in F. apply field_pair in Hv. destruct (F _ Hv) as (c & Hc & En & ty & K & _ & _ & NC & _). cbn [fst snd] in *.
  split; [|exists c, ty; auto]. destruct v; try (eexists; reflexivity). exfalso. apply NC. eexists _, _. reflexivity.
Qed.

Theorem rows_carried old new D db db' : wf_schema old -> wf_schema new -> references_keys old -> references_keys new -> gentle json_text old new ->
  held old D db -> migrated conv strict old new db db' -> exists D', rows_after old new D D' /\ held new D' db'.
Proof.
  intros WO WN RO RN GE (RE & HR & FT & OT & LG) (RE' & KE & NW & GO & SM).
  destruct (choose_rows (a_tables new) (fun n u R => exists b', mget n db' = Some b' /\ Forall2 row_is R (b_rows b') /\ Forall (row_fits json_text u) R
     /\ (forall t, In (n, t) (a_tables old) -> Forall2 (row_after t u) (D n) R)
     /\ (~ has_table old n -> R = []))) as (f & Hf).
  { apply (sorted_NoDup _ (proj1 WN)). }
  { intros n u Hu. destruct (RE' n u Hu) as (b' & Hb' & _ & RA). destruct (has_table_dec old n) as [(t & Ht)|Nt].
    - destruct (KE n t u Ht Hu) as (b & b1 & Hb & Hb1 & RK). rewrite Hb' in Hb1. injection Hb1 as <-.
      pose proof (HR n) as Hn. rewrite Hb in Hn. pose proof (FT n t Ht) as Fn.
      assert (exists R, Forall2 row_is R (b_rows b') /\ Forall (row_fits json_text u) R /\ Forall2 (row_after t u) (D n) R) as (R & R1 & R2 & R3).
      { unfold rows_kept in RK. assert (SUB : forall y, In y (b_rows b') -> In y (b_rows b')) by auto. revert SUB RK Hn Fn.
        generalize (b_rows b') at 1 3 4. generalize (b_rows b) (D n). clear HR KE. intros l l0 l' SUB RK. revert l0.
        induction RK as [|y y' l l' K RK IH]; intros l0 Hn Fn.
        - inversion Hn; subst. exists []. repeat constructor.
        - inversion Hn as [|r ? l1 ? RI Hn']; subst. inversion Fn as [|? ? F1 F2]; subst.
          destruct (row_carried old new n t u r y y' b' WO WN GE Ht Hu F1 RI K RA) as (r' & A1 & A2 & A3); [apply SUB; now left|].
          destruct (IH ltac:(intros; apply SUB; now right) l1 Hn' F2) as (R & B1 & B2 & B3).
          exists (r' :: R). repeat split; constructor; assumption. }
      exists R, b'. split; [exact Hb'|]. split; [exact R1|]. split; [exact R2|]. split.
      + intros t1 Ht1. rewrite (StoredProofs.same_table old n t1 t WO Ht1 Ht). exact R3.
      + intros N. exfalso. apply N. now exists t.
    - destruct (NW n (ex_intro _ u Hu) Nt) as (b1 & Hb1 & Er). rewrite Hb' in Hb1. injection Hb1 as <-.
      exists [], b'. rewrite Er. split; [exact Hb'|]. split; [constructor|]. split; [constructor|]. split; [|reflexivity].
      intros t Ht. exfalso. apply Nt. now exists t. }
  set (D' := fun n => if has_table_dec new n then f n else if has_table_dec old n then [] else D n).
  assert (D1 : forall n u, In (n, u) (a_tables new) -> D' n = f n).
  { intros n u Hu. unfold D'. destruct (has_table_dec new n) as [_|N]; [reflexivity|]. exfalso. apply N. now exists u. }
  exists D'. split; [split; [|split; [|split]]|split; [exact RE'|split; [|split; [|split]]]].
  - intros n t u Ht Hu. rewrite (D1 n u Hu). destruct (Hf n u Hu) as (b' & _ & _ & _ & A & _). now apply A.
  - intros n (u & Hu) Nt. rewrite (D1 n u Hu). destruct (Hf n u Hu) as (b' & _ & _ & _ & _ & A). now apply A.
  - intros n Ho Nn. unfold D'. destruct (has_table_dec new n); [contradiction|]. destruct (has_table_dec old n); [reflexivity|contradiction].
  - intros n No Nn. unfold D'. destruct (has_table_dec new n); [contradiction|]. destruct (has_table_dec old n); [contradiction|reflexivity].
  - intros n. destruct (has_table_dec new n) as [(u & Hu)|Nn].
    + rewrite (D1 n u Hu). destruct (Hf n u Hu) as (b' & -> & A & _). exact A.
    + unfold D'. destruct (has_table_dec new n); [contradiction|]. destruct (has_table_dec old n) as [Ho|No].
      * now rewrite (GO n Ho Nn).
      * rewrite (SM n No Nn). apply HR.
  - intros n u Hu. rewrite (D1 n u Hu). destruct (Hf n u Hu) as (b' & _ & _ & A & _). exact A.
  - intros n b Hb. destruct (has_table_dec new n) as [Hn|Nn]; [now left|]. right. destruct (has_table_dec old n) as [Ho|No].
    + rewrite (GO n Ho Nn) in Hb. discriminate.
    + rewrite (SM n No Nn) in Hb. destruct (OT n b Hb) as [Ho|Eb]; [contradiction|exact Eb].
  - (* the value of a column that was there before *)
    assert (KV : forall n t u c c' r r' x', In (n, t) (a_tables old) -> In (n, u) (a_tables new) -> In c (t_cols t) -> In c' (t_cols u) -> c_name c = c_name c' ->
      row_fits json_text t r -> row_fits json_text u r' -> row_after t u r r' -> field (c_name c') r' = Some x' ->
      exists x ty, field (c_name c) r = Some x /\ x' = widened ty x).
    { intros n t u c c' r r' x' Ht Hu Hc Hc' En (RD & RNm & _) RF (_ & RA) Fx. destruct (RA c' Hc') as [A _].
      assert (In (c_name c) (map fst r)) as Hn by (apply RNm; now exists c). destruct (field_In _ _ Hn) as (x & Hx).
      destruct (fits_field u r' _ x' RF Fx) as (_ & c1 & ty & Hc1 & E1 & K). pose proof (proj2 (proj2 WN n u Hu)) as [NDu _].
      assert (c1 = c') by (apply (column_unique u); auto). subst c1. exists x, ty. split; [exact Hx|].
      rewrite (A x ty) in Fx; [congruence| |rewrite <- En; exact Hx|exact K]. exists c. auto. }
    assert (FA : forall n u, In (n, u) (a_tables new) -> Forall (row_fits json_text u) (D' n)).
    { intros n u Hu. rewrite (D1 n u Hu). destruct (Hf n u Hu) as (b' & _ & _ & A & _). exact A. }
    assert (AF : forall n t u, In (n, t) (a_tables old) -> In (n, u) (a_tables new) -> Forall2 (row_after t u) (D n) (D' n)).
    { intros n t u Ht Hu. rewrite (D1 n u Hu). destruct (Hf n u Hu) as (b' & _ & _ & _ & A & _). now apply A. }
    assert (EM : forall n u, In (n, u) (a_tables new) -> ~ has_table old n -> D' n = []).
    { intros n u Hu N. rewrite (D1 n u Hu). destruct (Hf n u Hu) as (b' & _ & _ & _ & _ & A). now apply A. }
    constructor.
    + intros n u c' i j r' s' x' y' Hu Hc' Key L Hi Hj Fx Fy. destruct (has_table_dec old n) as [(t & Ht)|Nt]; [|rewrite (EM n u Hu Nt) in Hi; now destruct i].
      destruct (has_column_dec t (c_name c')) as [(c & Hc & En)|Nc].
      * pose proof (AF n t u Ht Hu) as F. destruct (Forall2_nth _ _ _ _ _ F Hi) as (r & Hr & Ar). destruct (Forall2_nth _ _ _ _ _ F Hj) as (s & Hs & As).
        pose proof (FA n u Hu) as Fu. rewrite Forall_forall in Fu. pose proof (FT n t Ht) as Ft. rewrite Forall_forall in Ft.
        pose proof (nth_error_In _ _ Hr) as Ir. pose proof (nth_error_In _ _ Hs) as Is. pose proof (nth_error_In _ _ Hi) as Ii. pose proof (nth_error_In _ _ Hj) as Ij.
        destruct (KV n t u c c' r r' x' Ht Hu Hc Hc' En (Ft _ Ir) (Fu _ Ii) Ar Fx) as (x & tx & Hx & ->).
        destruct (KV n t u c c' s s' y' Ht Hu Hc Hc' En (Ft _ Is) (Fu _ Ij) As Fy) as (y & ty & Hy & ->).
        rewrite equal_widened; [|apply (fits_field t r (c_name c)); auto|apply (fits_field t s (c_name c)); auto].
        destruct (ge_key _ _ _ GE n t u c c' Ht Hu Hc Hc' En) as (K1 & K2 & _).
        apply (lg_keys _ _ _ LG n t c i j r s); auto. destruct Key as [Key|Key]; auto.
      * destruct (ge_added _ _ _ GE n c') as (P1 & P2 & _); [exists t, u; auto|]. destruct Key; congruence.
    + intros n u c' g r' x' Hu Hc' Rf Hr' Fx. destruct (has_table_dec old n) as [(t & Ht)|Nt]; [|rewrite (EM n u Hu Nt) in Hr'; destruct Hr'].
      destruct (has_column_dec t (c_name c')) as [(c & Hc & En)|Nc].
      * destruct (ge_key _ _ _ GE n t u c c' Ht Hu Hc Hc' En) as (_ & _ & K3). pose proof (K3 g Rf) as Ro.
        destruct (Forall2_In_r _ _ _ r' (AF n t u Ht Hu) Hr') as (r & Hr & Ar).
        pose proof (FA n u Hu) as Fu. rewrite Forall_forall in Fu. pose proof (FT n t Ht) as Ft. rewrite Forall_forall in Ft.
        assert (Eg : fk_col g = c_name c') by (destruct Rf as (? & _ & ->); reflexivity). rewrite Eg in Fx.
        destruct (KV n t u c c' r r' x' Ht Hu Hc Hc' En (Ft _ Hr) (Fu _ Hr') Ar Fx) as (x & tx & Hx & ->).
        destruct (lg_refs _ _ _ LG n t c g r x Ht Hc Ro Hr) as [->|(p & y & Hp & Hy & Eq)]; [rewrite Eg, <- En; exact Hx|left; now destruct tx|].
        right. destruct (RO n t c g Ht Hc Ro) as (to & k & Hto & Hk & Ek & _). destruct (RN n u c' g Hu Hc' Rf) as (tn & k' & Htn & Hk' & Ek' & _).
        pose proof (AF _ _ _ Hto Htn) as F. destruct (In_nth_error _ _ Hp) as (i & Hi).
        assert (exists p', nth_error (D' (fk_table g)) i = Some p' /\ row_after to tn p p') as (p' & Hp' & Ap).
        { clear -F Hi. revert i Hi. induction F as [|a b l m H F IH]; intros [|i] Hi; try discriminate; cbn in Hi |- *; [injection Hi as <-; eauto|auto]. }
        apply nth_error_In in Hp'. pose proof (FA _ _ Htn) as Fp'. rewrite Forall_forall in Fp'. pose proof (Fp' _ Hp') as Fit.
        assert (In (fk_ref g) (map fst p')) as Hn by (apply Fit; exists k'; auto). destruct (field_In _ _ Hn) as (y' & Hy').
        pose proof (FT _ _ Hto) as Fp. rewrite Forall_forall in Fp.
        destruct (KV _ to tn k k' p p' y' Hto Htn Hk Hk' ltac:(congruence) (Fp _ Hp) Fit Ap ltac:(congruence)) as (y2 & ty & Hy2 & ->).
        assert (y2 = y) by congruence. subst y2. exists p', (widened ty y). split; [exact Hp'|]. split; [exact Hy'|].
        apply equal_widened; [apply (fits_field t r (c_name c)); auto|apply (fits_field to p (fk_ref g)); auto|exact Eq].
      * destruct (ge_added _ _ _ GE n c') as (_ & _ & P3 & _); [exists t, u; auto|]. destruct Rf as (? & X & _). congruence.
Qed.
End Step.

(** * Change after change *)
Section Steps.
Variable json_text : string -> option string.
Variable E : engine.
Variable veq : lvalue -> lvalue -> bool.
Variable conv : bool -> list string -> lvalue -> option lvalue.
Variable strict : bool.
Hypothesis CS : compares_stored E veq.
Notation held := (held json_text E conv strict).

Theorem carried_rows d tos db db' : carried conv strict d tos db db' -> forall D, usable d -> Forall usable tos -> gentle_all json_text d tos ->
  held d D db -> exists D', carried_by rows_after d tos D D' /\ held (last tos d) D' db'.
Proof.
  induction 1 as [d db|d to r db db1 db2 M C IH]; intros D U F G H; [exists D; split; [constructor|exact H]|].
  inversion F as [|? ? U1 F1]; subst. destruct G as [G1 G2].
  destruct (rows_carried json_text E veq conv strict CS d to D db db1 (us_wf _ U) (us_wf _ U1) (us_keys _ U) (us_keys _ U1) G1 H M) as (D1 & R1 & H1).
  destruct (IH D1 U1 F1 G2 H1) as (D2 & R2 & H2). exists D2. split; [econstructor; eassumption|].
  rewrite last_cons. exact H2.
Qed.
Lemma gentle_nth d tos : gentle_both json_text d tos -> forall i a b, nth_error (d :: tos) i = Some a -> nth_error (d :: tos) (S i) = Some b ->
  gentle json_text a b /\ gentle json_text b a.
Proof.
  revert d. induction tos as [|to tos IH]; intros d G [|i] a b Ha Hb; cbn in G.
  - discriminate Hb.
  - cbn in Hb. now destruct i.
  - injection Ha as <-. injection Hb as <-. tauto.
  - destruct G as (_ & _ & G). exact (IH to G i a b Ha Hb).
Qed.
Theorem walked_rows d tos i j db db' : usable d -> Forall usable tos -> gentle_both json_text d tos ->
  walked (migrated conv strict) (d :: tos) i j db db' -> forall D a, nth_error (d :: tos) i = Some a -> held a D db ->
  exists D' b, walked rows_after (d :: tos) i j D D' /\ nth_error (d :: tos) j = Some b /\ held b D' db'.
Proof.
  intros U F G. assert (US : forall k x, nth_error (d :: tos) k = Some x -> usable x).
  { intros [|k] x Hk; [now injection Hk as <-|]. rewrite Forall_forall in F. apply F. cbn in Hk. apply (nth_error_In _ _ Hk). }
  induction 1 as [i db|i j a b db db1 db2 Ha Hb M W IH|i j a b db db1 db2 Ha Hb M W IH]; intros D x Hx H.
  - exists D, x. split; [constructor|]. auto.
  - rewrite Ha in Hx. injection Hx as <-. pose proof (US _ _ Ha) as Ua. pose proof (US _ _ Hb) as Ub. destruct (gentle_nth d tos G i a b Ha Hb) as [G1 _].
    destruct (rows_carried json_text E veq conv strict CS a b D db db1 (us_wf _ Ua) (us_wf _ Ub) (us_keys _ Ua) (us_keys _ Ub) G1 H M) as (D1 & R1 & H1).
    destruct (IH D1 b Hb H1) as (D2 & y & R2 & Hy & H2). exists D2, y. split; [eapply st_next; eassumption|]. auto.
  - rewrite Hb in Hx. injection Hx as <-. pose proof (US _ _ Ha) as Ua. pose proof (US _ _ Hb) as Ub. destruct (gentle_nth d tos G i a b Ha Hb) as [_ G1].
    destruct (rows_carried json_text E veq conv strict CS b a D db db1 (us_wf _ Ub) (us_wf _ Ua) (us_keys _ Ub) (us_keys _ Ua) G1 H M) as (D1 & R1 & H1).
    destruct (IH D1 a Ha H1) as (D2 & y & R2 & Hy & H2). exists D2, y. split; [eapply st_back; eassumption|]. auto.
Qed.
End Steps.
