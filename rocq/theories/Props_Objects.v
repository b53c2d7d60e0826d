(** Properties C29 and C30: saving, getting and deleting objects. *)
From Coq Require Import Permutation.
From Verif Require Import Base SqlVal Adb Conv Backend Sql SqlStmt Query QuerySpec Stmt StmtSpec Conn ConnProofs
  Many ManyProofs Codegen CodegenSpec CodegenProofs Props_Query Props_Models Obj ObjSpec ObjProofs Props_Relations.

Section Objects.
Context {U X : Type}.
Variable resolve : resolver.
Variable sem : ty -> codec U.
Variable valid : U -> bool.
Variable init : U -> SqlVal -> outcome unit * U.
Variable s : sdef.
Variable g : dbobject.
Variables (d : dialect) (kw : string -> bool) (b : backend) (E : engine).
Variable gen : db -> string -> list string -> row.
Variable K : SqlVal -> Prop.
Hypothesis S : setting resolve s g d kw b E gen K.

Notation object := (@object U (many X)).
Notation save := (@save U X sem valid init g d kw b E gen).
Notation delete := (@delete U X sem g d kw b E gen).
Notation get_answers := (@get_answers U X sem g d kw b E).
Notation try_get_answers := (@try_get_answers U X sem g d kw b E).
Notation ready := (@ready U X resolve sem valid init s g b E gen K).

Lemma save_main (o o' : object) w w' kv : ready (w_db w) o kv -> save o w = (Ok tt, o', w') -> stores sem o' (do_pk g) kv ->
  exists u, obj_get o (sf_ident (do_pk g)) = Some (FV u) /\ saved_as resolve sem valid s g E K o o' u kv (w_db w) (w_db w').
Proof.
  intros [R1 R2 R3 R4] H Hst. destruct S as [Hc Hg KW EO NO EX FR].
  exact (save_ok resolve sem valid init s g d kw b E gen K Hc Hg KW EO NO EX FR o o' w w' tt kv R1 R2 R3 H Hst R4).
Qed.
Lemma get_main id w r w' : K id -> model_table E K g (w_db w) ->
  (get_answers id w r w' <->
   w' = after w (w_db w) /\
   match next_fate w with
   | Works => (filter (has_key E (do_pkcol g) id) (w_db w (do_table g)) = [] /\ r = Err NoSuchObject)
              \/ exists x vs, In x (w_db w (do_table g)) /\ has_key E (do_pkcol g) id x = true
                   /\ columns_of (map fst (dr_columns (do_result g))) x = Some vs /\ r = object_of_row (X := X) sem g vs
   | _ => r = Err (DbError 0)
   end).
Proof. destruct S as [Hc Hg KW EO NO EX FR]. exact (get_iff resolve sem s g d kw b E K Hc Hg KW EO NO EX id w r w'). Qed.
Lemma table_columns D x : model_table E K g D -> In x (D (do_table g)) ->
  exists vs, columns_of (map fst (dr_columns (do_result g))) x = Some vs.
Proof.
  intros HM Hin. unfold model_table in HM. rewrite Forall_forall in HM. destruct (HM x Hin) as [[_ N2] _]. now apply columns_of_some.
Qed.
Lemma saved_exists (o o' : object) u kv D D' : saved_as resolve sem valid s g E K o o' u kv D D' ->
  obj_get o (sf_ident (do_pk g)) = Some (FV u) ->
  (numbered_already valid g o -> row_exists E g D kv) -> row_exists E g D' kv.
Proof.
  intros (S1 & S2 & S3 & S4 & S5 & S6 & S7 & S8 & S9) Hu Hex.
  destruct (do_auto g) eqn:Ha; cbn [andb orb] in S9.
  - destruct (valid u) eqn:Hv; cbn [negb] in S9.
    + destruct S9 as (_ & _ & S9). destruct Hex as (x & Hx & Hk); [split; [exact Ha|eauto]|].
      assert (Hb : existsb (has_key E (do_pkcol g) kv) (D' (do_table g)) = true) by (apply S9; right; apply existsb_exists; eauto).
      apply existsb_exists in Hb as (y & Hy & Hk'). exists y. auto.
    + destruct S9 as (_ & (x & Hx & Hk) & _). exists x. rewrite Hx. split; [apply in_or_app; right; now left|exact Hk].
  - destruct S9 as (_ & _ & S9). assert (Hb : existsb (has_key E (do_pkcol g) kv) (D' (do_table g)) = true) by (apply S9; now left).
    apply existsb_exists in Hb as (y & Hy & Hk'). exists y. auto.
Qed.
Lemma relations_known (o o' : object) u kv D D' : saved_as resolve sem valid s g E K o o' u kv D D' ->
  own_relations resolve b s (do_table g) D o kv ->
  forall f, In f (relation_fields resolve s) -> exists m, obj_get o' (sf_ident f) = Some (FM m)
      /\ m_owner m = Some kv /\ m_table m = relation_name (do_table g) f.
Proof.
  intros (S1 & S2 & S3 & S4 & S5 & S6 & S7 & S8 & S9) Ho f Hf. destruct (Ho f Hf) as (m & Hm & _).
  destruct (S8 f Hf m Hm) as (m' & M1 & M2 & M3 & _). eauto.
Qed.
End Objects.

(** * C29: what is saved is what is got *)

(** After a successful save, get by the object's key returns an equal object,
    whenever the connection works: some answer exists and every answer is that.
    Missing: an automatic key that is set but whose row is gone (see
    C30_missing_row_refuted). *)
Theorem C29_save_get_partial : forall U X resolve sem valid init s g d kw b E gen K (o o' : @object U (many X)) w w' kv,
  setting resolve s g d kw b E gen K ->
  ready resolve sem valid init s g b E gen K (w_db w) o kv -> fields_survive resolve sem s o' ->
  (numbered_already valid g o -> row_exists E g (w_db w) kv) ->
  save sem valid init g d kw b E gen o w = (Ok tt, o', w') -> stores sem o' (do_pk g) kv ->
  (exists r w2, get_answers (X := X) sem g d kw b E kv w' r w2)
  /\ forall r w2, get_answers sem g d kw b E kv w' r w2 ->
       if match next_fate w' with Works => true | _ => false end
       then exists o2, r = Ok o2 /\ equal_objects resolve s o' o2
       else r = Err (DbError 0).
Proof.
  intros U X resolve sem valid init s g d kw b E gen K o o' w w' kv S R Hsv Hex H Hst.
  destruct (save_main resolve sem valid init s g d kw b E gen K S o o' w w' kv R H Hst) as (u & Hu & SA).
  pose proof (saved_exists resolve sem valid s g E K o o' u kv (w_db w) (w_db w') SA Hu Hex) as (x & Hx & Hk).
  pose proof (relations_known resolve sem valid s g b E K o o' u kv (w_db w) (w_db w') SA (rd_relations _ _ _ _ _ _ _ _ _ _ _ _ _ R)) as Hrel.
  destruct SA as (S1 & S2 & S3 & S4 & S5 & S6 & S7 & S8 & S9).
  pose proof (fun r w2 => get_main (X := X) resolve sem s g d kw b E gen K S kv w' r w2 S2 S5) as G. split.
  - destruct (next_fate w') eqn:Ef.
    + destruct (table_columns g E K (w_db w') x S5 Hx) as (vs & Hvs). exists (object_of_row sem g vs), (after w' (w_db w')).
      apply G. split; [reflexivity|]. right. exists x, vs. auto.
    + exists (Err (DbError 0)), (after w' (w_db w')). apply G. auto.
    + exists (Err (DbError 0)), (after w' (w_db w')). apply G. auto.
  - intros r w2 Hg2. apply G in Hg2 as [_ Hg2]. destruct (next_fate w'); [|exact Hg2..].
    destruct Hg2 as [[He _]|(y & vs & Hy & Hky & Hvs & ->)].
    + assert (In x (filter (has_key E (do_pkcol g) kv) (w_db w' (do_table g)))) by now apply filter_In. rewrite He in H0. contradiction.
    + destruct S as [Hc Hg KW EO NO EX FR].
      exact (read_back resolve sem s g Hc Hg o' y vs kv Hst Hsv (S7 y Hy Hky) Hrel Hvs).
Qed.
Print Assumptions C29_save_get_partial.

(** A save leaves the object as it was, but for a key the database chose and for
    the bookkeeping of its relations. *)
Theorem C29_save_keeps_fields : forall U X resolve sem valid init s g d kw b E gen K (o o' : @object U (many X)) w w' kv,
  setting resolve s g d kw b E gen K ->
  ready resolve sem valid init s g b E gen K (w_db w) o kv ->
  save sem valid init g d kw b E gen o w = (Ok tt, o', w') -> stores sem o' (do_pk g) kv ->
  (forall f, In f (row_fields resolve s) -> f <> do_pk g \/ do_auto g = false \/ numbered_already valid g o ->
     obj_get o' (sf_ident f) = obj_get o (sf_ident f))
  /\ (forall f m, In f (relation_fields resolve s) -> obj_get o (sf_ident f) = Some (FM m) ->
        exists m', obj_get o' (sf_ident f) = Some (FM m') /\ m_owner m' = Some kv
          /\ m_table m' = relation_name (do_table g) f /\ m_new m' = [] /\ m_removed m' = []
          /\ Permutation (partners E (w_db w') (relation_name (do_table g) f) kv)
               (without E (partners E (w_db w) (relation_name (do_table g) f) kv ++ m_new m) (m_removed m))).
Proof.
  intros U X resolve sem valid init s g d kw b E gen K o o' w w' kv S R H Hst.
  destruct (save_main resolve sem valid init s g d kw b E gen K S o o' w w' kv R H Hst) as (u & Hu & SA).
  destruct SA as (S1 & S2 & S3 & S4 & S5 & S6 & S7 & S8 & S9). split.
  - intros f Hf Hcase.
    destruct (string_dec (strip_raw (sf_ident f)) (strip_raw (sf_ident (do_pk g)))) as [He|He].
    + assert (f = do_pk g).
      { destruct S as [Hc Hg KW EO NO EX FR]. apply (row_inj resolve s Hc); auto. now apply (pk_row resolve s g Hc Hg). }
      subst f. destruct Hcase as [Hn|[Ha|[Ha (u0 & Hu0 & Hv)]]]; [congruence| |].
      * rewrite Ha in S9. cbn in S9. destruct S9 as (E1 & _). congruence.
      * rewrite Hu in Hu0. inversion Hu0; subst u0. rewrite Ha, Hv in S9. cbn in S9. destruct S9 as (E1 & _). congruence.
    + apply S3; auto. congruence.
  - intros f m Hf Hm. destruct (S8 f Hf m Hm) as (m' & M1 & M2 & M3 & M4 & M5 & _ & M7). exists m'. auto 8.
Qed.
Print Assumptions C29_save_keeps_fields.

(** Every other object of the table can be got as before; the other tables are
    unchanged. *)
Theorem C29_save_others : forall U X resolve sem valid init s g d kw b E gen K (o o' : @object U (many X)) w w' kv,
  setting resolve s g d kw b E gen K ->
  ready resolve sem valid init s g b E gen K (w_db w) o kv ->
  save sem valid init g d kw b E gen o w = (Ok tt, o', w') -> stores sem o' (do_pk g) kv ->
  rows_of_others E g (w_db w') kv = rows_of_others E g (w_db w) kv
  /\ (forall id r fate, K id -> id <> kv ->
        (exists wa, get_answers (X := X) sem g d kw b E id {| w_db := w_db w; w_fate := fate |} r wa)
        <-> (exists wb, get_answers (X := X) sem g d kw b E id {| w_db := w_db w'; w_fate := fate |} r wb))
  /\ (forall n, n <> do_table g -> (forall f, In f (relation_fields resolve s) -> n <> relation_name (do_table g) f) ->
        w_db w' n = w_db w n).
Proof.
  intros U X resolve sem valid init s g d kw b E gen K o o' w w' kv S R H Hst.
  destruct (save_main resolve sem valid init s g d kw b E gen K S o o' w w' kv R H Hst) as (u & Hu & SA).
  destruct SA as (S1 & S2 & S3 & S4 & S5 & S6 & S7 & S8 & S9). split; [exact S6|]. split.
  - intros id r fate HK Hne.
    pose proof (other_rows g E K (st_keys _ _ _ _ _ _ _ _ _ S) kv id (w_db w) (w_db w') S2 HK Hne (rd_table _ _ _ _ _ _ _ _ _ _ _ _ _ R) S5 S6) as Hr.
    assert (He : filter (has_key E (do_pkcol g) id) (w_db w' (do_table g)) = [] <-> filter (has_key E (do_pkcol g) id) (w_db w (do_table g)) = []).
    { assert (X0 : forall l, filter (has_key E (do_pkcol g) id) l = [] <-> forall x, ~ (In x l /\ has_key E (do_pkcol g) id x = true)).
      { intros l. split.
        - intros Hl x Hx. apply filter_In in Hx. rewrite Hl in Hx. contradiction.
        - intros Hx. destruct (filter (has_key E (do_pkcol g) id) l) as [|x l'] eqn:El; [reflexivity|]. exfalso. apply (Hx x). apply filter_In. rewrite El. now left. }
      rewrite !X0. split; intros Hx x Hx'; apply (Hx x); now apply Hr. }
    assert (G1 := fun w2 => get_main (X := X) resolve sem s g d kw b E gen K S id {| w_db := w_db w; w_fate := fate |} r w2 HK (rd_table _ _ _ _ _ _ _ _ _ _ _ _ _ R)).
    assert (G2 := fun w2 => get_main (X := X) resolve sem s g d kw b E gen K S id {| w_db := w_db w'; w_fate := fate |} r w2 HK S5).
    cbn [w_db next_fate w_fate] in G1, G2. split; intros (wa & Ha).
    + apply G1 in Ha as [_ Ha]. eexists. apply G2. split; [reflexivity|]. destruct fate as [|[| |] fate]; try exact Ha.
      * destruct Ha as [[Ha1 Ha2]|(x & vs & A1 & A2 & A3 & A4)]; [left; split; [now apply He|exact Ha2]|right].
        exists x, vs. destruct (proj2 (Hr x) (conj A1 A2)). auto.
      * destruct Ha as [[Ha1 Ha2]|(x & vs & A1 & A2 & A3 & A4)]; [left; split; [now apply He|exact Ha2]|right].
        exists x, vs. destruct (proj2 (Hr x) (conj A1 A2)). auto.
    + apply G2 in Ha as [_ Ha]. eexists. apply G1. split; [reflexivity|]. destruct fate as [|[| |] fate]; try exact Ha.
      * destruct Ha as [[Ha1 Ha2]|(x & vs & A1 & A2 & A3 & A4)]; [left; split; [now apply He|exact Ha2]|right].
        exists x, vs. destruct (proj1 (Hr x) (conj A1 A2)). auto.
      * destruct Ha as [[Ha1 Ha2]|(x & vs & A1 & A2 & A3 & A4)]; [left; split; [now apply He|exact Ha2]|right].
        exists x, vs. destruct (proj1 (Hr x) (conj A1 A2)). auto.
  - intros n Hn Hr. apply S4; [exact Hn|]. intros (f & Hf & ->). now apply (Hr f Hf).
Qed.
Print Assumptions C29_save_others.

(** After a successful delete, get reports that there is no such object; every
    other row and every other table is unchanged.  A delete that fails did all of
    that or nothing. *)
Theorem C29_delete : forall U X resolve sem s g d kw b E gen K (o : @object U (many X)) w w' r kv,
  setting resolve s g d kw b E gen K -> model_table E K g (w_db w) -> stores sem o (do_pk g) kv -> K kv ->
  delete sem g d kw b E gen o w = (r, w') ->
  (r = Ok tt \/ r = Err (DbError 0))
  /\ (r = Ok tt -> forall x w2, get_answers (X := X) sem g d kw b E kv w' x w2 ->
        x = match next_fate w' with Works => Err NoSuchObject | _ => Err (DbError 0) end)
  /\ (r = Ok tt -> forall x w2, try_get_answers (X := X) sem g d kw b E kv w' x w2 ->
        x = match next_fate w' with Works => Ok None | _ => Err (DbError 0) end)
  /\ (w_db w' (do_table g) = rows_of_others E g (w_db w) kv
      \/ r = Err (DbError 0) /\ w_db w' (do_table g) = w_db w (do_table g))
  /\ (forall n, n <> do_table g -> w_db w' n = w_db w n)
  /\ model_table E K g (w_db w').
Proof.
  intros U X resolve sem s g d kw b E gen K o w w' r kv S HM Hst HK H.
  destruct S as [Hc Hg KW EO NO EX FR].
  rewrite (delete_effect resolve sem s g d kw b E gen K Hc Hg KW EO NO EX o w kv Hst HK HM) in H.
  set (D' := with_table (w_db w) (do_table g) (others g E kv (w_db w (do_table g)))) in *.
  assert (HM' : model_table E K g D').
  { unfold model_table, D'. rewrite with_table_same. unfold model_table in HM. rewrite Forall_forall in *. intros x Hx.
    apply filter_In in Hx as [Hx _]. auto. }
  assert (Hnone : filter (has_key E (do_pkcol g) kv) (D' (do_table g)) = []).
  { unfold D'. rewrite with_table_same. unfold others. generalize (w_db w (do_table g)) as l0. clear. induction l0 as [|x l IH]; [reflexivity|].
    cbn [filter]. destruct (has_key E (do_pkcol g) kv x) eqn:Ek; cbn [negb filter]; [exact IH|]. now rewrite Ek. }
  assert (Hoth : forall n, n <> do_table g -> D' n = w_db w n) by (intros n Hn; unfold D'; now rewrite with_table_other).
  assert (Hsame : D' (do_table g) = rows_of_others E g (w_db w) kv) by (unfold D'; now rewrite with_table_same).
  assert (Hget : forall x w2, w_db w' = D' -> get_answers (X := X) sem g d kw b E kv w' x w2 ->
            x = match next_fate w' with Works => Err NoSuchObject | _ => Err (DbError 0) end).
  { intros x w2 HD Hgx. apply (get_iff resolve sem s g d kw b E K Hc Hg KW EO NO EX) in Hgx; [|exact HK|now rewrite HD].
    destruct Hgx as [_ Hgx]. rewrite HD in Hgx. destruct (next_fate w'); [|exact Hgx..].
    destruct Hgx as [[_ Hgx]|(y & vs & Hy & Hk & _)]; [exact Hgx|].
    assert (In y (filter (has_key E (do_pkcol g) kv) (D' (do_table g)))) by now apply filter_In. rewrite Hnone in H0. contradiction. }
  assert (Htry : forall x w2, w_db w' = D' -> try_get_answers (X := X) sem g d kw b E kv w' x w2 ->
            x = match next_fate w' with Works => Ok None | _ => Err (DbError 0) end).
  { intros x w2 HD Hx. assert (Hgx : get_answers (X := X) sem g d kw b E kv w' (obind x (fun x => match x with Some o => Ok o | None => Err NoSuchObject end)) w2)
      by (exists x; auto).
    destruct Hx as (l & (q & Hq & ->) & ->).
    apply (get_query_ok resolve s g d kw b E K Hc Hg KW EO NO) in Hq; [|exact HK|now rewrite HD]. destruct Hq as [_ Hq]. rewrite HD in Hq.
    destruct (next_fate w'); [|now subst..]. destruct Hq as [(out & -> & Hr)|[-> Hno]].
    - apply (get_returns g E K EO EX) in Hr; auto. destruct Hr as [[_ ->]|(y & vs & Hy & Hk & _)]; [reflexivity|].
      assert (In y (filter (has_key E (do_pkcol g) kv) (D' (do_table g)))) by now apply filter_In. rewrite Hnone in H0. contradiction.
    - exfalso. apply (Hno []). apply (get_returns g E K EO EX); auto. }
  unfold by_fate in H. destruct (next_fate w); inversion H; subst r w'; cbn [w_db after].
  - split; [now left|]. split; [intros _ x w2 Hx; eapply Hget; eauto|]. split; [intros _ x w2 Hx; eapply Htry; eauto|].
    split; [now left|]. split; [exact Hoth|exact HM'].
  - split; [now right|]. split; [discriminate|]. split; [discriminate|]. split; [right; auto|]. split; [reflexivity|exact HM].
  - split; [now right|]. split; [discriminate|]. split; [discriminate|]. split; [left; exact Hsame|]. split; [exact Hoth|exact HM'].
Qed.
Print Assumptions C29_delete.

(** * C30: automatic keys *)

(** The first save adds one row, which holds the object under a key no other row
    has, and the object knows that key. *)
Theorem C30_first_save : forall U X resolve sem valid init s g d kw b E gen K (o o' : @object U (many X)) w w' kv u,
  setting resolve s g d kw b E gen K -> do_auto g = true ->
  ready resolve sem valid init s g b E gen K (w_db w) o kv ->
  obj_get o (sf_ident (do_pk g)) = Some (FV u) -> valid u = false ->
  save sem valid init g d kw b E gen o w = (Ok tt, o', w') -> stores sem o' (do_pk g) kv ->
  exists r, w_db w' (do_table g) = w_db w (do_table g) ++ [r]
    /\ holds_object resolve sem s o' r /\ field (do_pkcol g) r = Some kv
    /\ ~ row_exists E g (w_db w) kv /\ numbered_already valid g o'.
Proof.
  intros U X resolve sem valid init s g d kw b E gen K o o' w w' kv u S Ha R Hu Hv H Hst.
  destruct (save_main resolve sem valid init s g d kw b E gen K S o o' w w' kv R H Hst) as (u0 & Hu0 & SA).
  assert (u0 = u) by congruence. subst u0.
  destruct SA as (S1 & S2 & S3 & S4 & S5 & S6 & S7 & S8 & S9). rewrite Ha, Hv in S9. cbn in S9.
  destruct S9 as (E1 & (r & Hr & Hk) & u1 & E3 & E4). exists r. split; [exact Hr|].
  assert (Hin : In r (w_db w' (do_table g))) by (rewrite Hr; apply in_or_app; right; now left).
  split; [now apply S7|]. split; [|split].
  - destruct (S7 r Hin Hk (do_pk g)) as (v & V1 & V2).
    { destruct S as [Hc Hg KW EO NO EX FR]. now apply (pk_row resolve s g Hc Hg). }
    destruct S as [Hc Hg KW EO NO EX FR]. rewrite (pkcol_eq resolve s g Hg), V2. f_equal. exact (stores_fun sem o' (do_pk g) v kv V1 Hst).
  - intros (x & Hx & Hkx). rewrite <- E1 in Hx. apply filter_In in Hx as [_ Hx]. rewrite Hkx in Hx. discriminate.
  - split; [exact Ha|]. eauto.
Qed.
Print Assumptions C30_first_save.

(** Every later save keeps the key and the number of rows, and changes only rows
    with this key, which then hold the object. *)
Theorem C30_later_save : forall U X resolve sem valid init s g d kw b E gen K (o o' : @object U (many X)) w w' kv,
  setting resolve s g d kw b E gen K ->
  ready resolve sem valid init s g b E gen K (w_db w) o kv -> numbered_already valid g o ->
  save sem valid init g d kw b E gen o w = (Ok tt, o', w') -> stores sem o' (do_pk g) kv ->
  obj_get o' (sf_ident (do_pk g)) = obj_get o (sf_ident (do_pk g))
  /\ length (w_db w' (do_table g)) = length (w_db w (do_table g))
  /\ rows_of_others E g (w_db w') kv = rows_of_others E g (w_db w) kv
  /\ (forall r, In r (w_db w' (do_table g)) -> has_key E (do_pkcol g) kv r = true -> holds_object resolve sem s o' r)
  /\ (row_exists E g (w_db w) kv -> row_exists E g (w_db w') kv).
Proof.
  intros U X resolve sem valid init s g d kw b E gen K o o' w w' kv S R [Ha (u & Hu & Hv)] H Hst.
  destruct (save_main resolve sem valid init s g d kw b E gen K S o o' w w' kv R H Hst) as (u0 & Hu0 & SA).
  assert (u0 = u) by congruence. subst u0. pose proof SA as SA'.
  destruct SA as (S1 & S2 & S3 & S4 & S5 & S6 & S7 & S8 & S9). rewrite Ha, Hv in S9. cbn in S9.
  destruct S9 as (E1 & E2 & E3). split; [congruence|]. split; [lia|]. split; [exact S6|]. split; [exact S7|].
  intros Hex. eapply saved_exists; eauto.
Qed.
Print Assumptions C30_later_save.

(** A key that is not automatic: the row is stored when it is missing, and changed
    when it is there. *)
Theorem C30_plain_key : forall U X resolve sem valid init s g d kw b E gen K (o o' : @object U (many X)) w w' kv,
  setting resolve s g d kw b E gen K -> do_auto g = false ->
  ready resolve sem valid init s g b E gen K (w_db w) o kv ->
  save sem valid init g d kw b E gen o w = (Ok tt, o', w') -> stores sem o' (do_pk g) kv ->
  obj_get o' (sf_ident (do_pk g)) = obj_get o (sf_ident (do_pk g))
  /\ (exists r, In r (w_db w' (do_table g)) /\ has_key E (do_pkcol g) kv r = true /\ holds_object resolve sem s o' r)
  /\ (row_exists E g (w_db w) kv -> length (w_db w' (do_table g)) = length (w_db w (do_table g)))
  /\ (~ row_exists E g (w_db w) kv -> length (w_db w' (do_table g)) = Datatypes.S (length (w_db w (do_table g)))).
Proof.
  intros U X resolve sem valid init s g d kw b E gen K o o' w w' kv S Ha R H Hst.
  destruct (save_main resolve sem valid init s g d kw b E gen K S o o' w w' kv R H Hst) as (u & Hu & SA).
  assert (Hex : row_exists E g (w_db w') kv) by (eapply saved_exists; [exact SA|exact Hu|]; intros [Ht _]; congruence).
  destruct SA as (S1 & S2 & S3 & S4 & S5 & S6 & S7 & S8 & S9). rewrite Ha in S9. cbn in S9. destruct S9 as (E1 & E2 & _).
  split; [congruence|]. split; [destruct Hex as (r & Hr & Hk); exists r; auto|]. split.
  - intros (x & Hx & Hk). assert (Hb : existsb (has_key E (do_pkcol g) kv) (w_db w (do_table g)) = true) by (apply existsb_exists; eauto).
    rewrite Hb in E2. lia.
  - intros Hno. destruct (existsb (has_key E (do_pkcol g) kv) (w_db w (do_table g))) eqn:Hb; [|lia].
    apply existsb_exists in Hb as (x & Hx & Hk). exfalso. apply Hno. exists x. auto.
Qed.
Print Assumptions C30_plain_key.

(** Any history of one object with an automatic key: saves that succeed, changes
    of its other fields, and whatever others do to the database. [n] is the number
    of rows its saves added. *)
Inductive history {U X} (resolve : resolver) sem valid init s g d kw b E gen K :
  @object U (many X) -> world -> @object U (many X) -> world -> nat -> Prop :=
| h_start o w : history resolve sem valid init s g d kw b E gen K o w o w 0
| h_save o w o1 w1 o2 w2 n n' kv :
    history resolve sem valid init s g d kw b E gen K o w o1 w1 n ->
    ready resolve sem valid init s g b E gen K (w_db w1) o1 kv ->
    save sem valid init g d kw b E gen o1 w1 = (Ok tt, o2, w2) -> stores sem o2 (do_pk g) kv ->
    length (w_db w2 (do_table g)) = length (w_db w1 (do_table g)) + n' ->
    history resolve sem valid init s g d kw b E gen K o w o2 w2 (n + n')
| h_edit o w o1 w1 o2 n :
    history resolve sem valid init s g d kw b E gen K o w o1 w1 n ->
    obj_get o2 (sf_ident (do_pk g)) = obj_get o1 (sf_ident (do_pk g)) ->
    history resolve sem valid init s g d kw b E gen K o w o2 w1 n
| h_others o w o1 w1 w2 n :
    history resolve sem valid init s g d kw b E gen K o w o1 w1 n ->
    history resolve sem valid init s g d kw b E gen K o w o1 w2 n.
(** No save ever changes a key that is set or adds a row for it; an object not yet
    saved gets its key and its only row with the first save. *)
Theorem C30_history : forall U X resolve sem valid init s g d kw b E gen K (o o' : @object U (many X)) w w' n,
  setting resolve s g d kw b E gen K -> do_auto g = true ->
  history resolve sem valid init s g d kw b E gen K o w o' w' n ->
  (numbered_already valid g o -> n = 0 /\ obj_get o' (sf_ident (do_pk g)) = obj_get o (sf_ident (do_pk g)))
  /\ (~ numbered_already valid g o ->
        (n = 0 /\ obj_get o' (sf_ident (do_pk g)) = obj_get o (sf_ident (do_pk g)))
        \/ (n = 1 /\ numbered_already valid g o')).
Proof.
  intros U X resolve sem valid init s g d kw b E gen K o o' w w' n S Ha H.
  assert (Hnum : forall a a' : @object U (many X), obj_get a' (sf_ident (do_pk g)) = obj_get a (sf_ident (do_pk g)) ->
            numbered_already valid g a -> numbered_already valid g a').
  { intros a a' He [H1 (u & H2 & H3)]. split; [exact H1|]. exists u. now rewrite He. }
  induction H as [o w|o w o1 w1 o2 w2 n n' kv H [IH1 IH2] R Hs Hst Hn|o w o1 w1 o2 n H [IH1 IH2] He|o w o1 w1 w2 n H [IH1 IH2]].
  - split; auto.
  - assert (Hstep : (numbered_already valid g o1 -> n' = 0 /\ obj_get o2 (sf_ident (do_pk g)) = obj_get o1 (sf_ident (do_pk g)))
                    /\ (~ numbered_already valid g o1 -> n' = 1 /\ numbered_already valid g o2)).
    { split.
      - intros Hna. destruct (C30_later_save _ _ _ _ _ _ _ _ _ _ _ _ _ _ _ _ _ _ _ S R Hna Hs Hst) as (E1 & E2 & _). split; [lia|exact E1].
      - intros Hna. destruct (save_main resolve sem valid init s g d kw b E gen K S o1 o2 w1 w2 kv R Hs Hst) as (u & Hu & _).
        destruct (valid u) eqn:Hv; [exfalso; apply Hna; split; [exact Ha|]; eauto|].
        destruct (C30_first_save _ _ _ _ _ _ _ _ _ _ _ _ _ _ _ _ _ _ _ _ S Ha R Hu Hv Hs Hst) as (r & E1 & _ & _ & _ & E2).
        rewrite E1, app_length in Hn. cbn in Hn. split; [lia|exact E2]. }
    destruct Hstep as [P1 P2]. split.
    + intros Hna. destruct (IH1 Hna) as [-> He]. destruct (P1 (Hnum _ _ He Hna)) as [-> He2]. split; [reflexivity|congruence].
    + intros Hna. right. destruct (IH2 Hna) as [[-> He]|[-> Hna1]].
      * destruct P2 as [-> P2]; [intros Hx; apply Hna; eapply Hnum; [|exact Hx]; congruence|]. auto.
      * destruct (P1 Hna1) as [-> He]. split; [reflexivity|]. eapply Hnum; eauto.
  - split.
    + intros Hna. destruct (IH1 Hna) as [-> He1]. split; [reflexivity|congruence].
    + intros Hna. destruct (IH2 Hna) as [[-> He1]|[-> Hna1]]; [left; split; [reflexivity|congruence]|right]. split; [reflexivity|]. eapply Hnum; eauto.
  - auto.
Qed.
Print Assumptions C30_history.

(** * Examples and refutations *)

(** [is_valid] and [initialize] of the key types of Conv.v (sqlval.rs:332-337,
    autopk.rs:106-113). *)
Definition rv_valid (u : rvalue) : bool :=
  match projT1 u as t return rust t -> bool with
  | RAutoPk t => fun k => match k with Some _ => true | None => false end
  | _ => fun _ => true
  end (projT2 u).
Definition rv_init (u : rvalue) (v : SqlVal) : outcome unit * rvalue :=
  if rv_valid u then (Ok tt, u)
  else match from_sql (projT1 u) v with
       | Ok k => (Ok tt, existT rust (projT1 u) k)
       | Err e => (Err e, u)
       | Panic => (Panic, u)
       end.
(** The engine numbers posts one above the highest number so far. *)
Definition next_id (l : list row) : Z :=
  (1 + fold_right (fun r m => match field "id" r with Some (VBigInt z) => Z.max z m | _ => m end) 0 l)%Z.
Definition posts_gen : db -> string -> list string -> row := fun D t cols =>
  if String.eqb t "posts" && negb (kmem "id" cols) then [("id", VBigInt (next_id (D "posts")))] else [].
Definition i64_key (v : SqlVal) : Prop := exists z, v = VBigInt z /\ (- 2 ^ 63 <= z < 2 ^ 63)%Z.

Example post_setting : setting table_resolve post post_code sqlite_like ex_kw Sqlite ex_engine posts_gen i64_key.
Proof.
  destruct C31_case as (H1 & H2 & H3 & H4 & H5 & H6 & H7 & H8). split.
  - exact H1.
  - exact H2.
  - exact ex_quotes_sqlite.
  - exact ex_engine_ok.
  - split.
    + vm_compute. reflexivity.
    + rewrite H5. split; [discriminate|vm_compute; reflexivity].
    + rewrite H3. repeat constructor.
    + rewrite H6. split; vm_compute; reflexivity.
    + exact I.
    + exact I.
    + vm_compute. reflexivity.
    + rewrite H8. repeat constructor.
  - intros x y (a & -> & _) (c & -> & _). unfold compare3, ex_engine, ex_cmp. cbn. destruct (Z.compare_spec a c) as [Hx|Hx|Hx]; split; intros Hy; try congruence.
    + inversion Hy. subst. lia.
    + inversion Hy. subst. lia.
  - intros D cs ND. rewrite H5. unfold posts_gen. rewrite String.eqb_refl. cbn [andb].
    destruct (kmem "id" cs) eqn:Em; cbn [negb map app]; [now rewrite app_nil_r|].
    apply NoDup_app_iff. split; [exact ND|]. split; [repeat constructor; auto|]. intros x Hx [<-|[]].
    assert (Hm : kmem "id" cs = true) by (apply kmem_In; exact Hx). rewrite Em in Hm. discriminate.
Qed.

Definition ex_row (id : Z) (title : string) : row := [("title", VText title); ("id", VBigInt id); ("type", VInt 4); ("blog", VNull)].
Definition ex_posts : db := fun t =>
  if String.eqb t "posts" then [ex_row 7 "first"; ex_row 3 "second"]
  else if String.eqb t "posts_tags_Many" then [[("owner", VBigInt 3); ("has", VInt 10)]] else [].
Definition posts_world : world := {| w_db := ex_posts; w_fate := [] |}.
Definition ex_post (id : option Z) (title : string) (m : many Z) : @object rvalue (many Z) :=
  [ ("title", FV (existT rust RString title)); ("tags", FM m);
    ("id", FV (existT rust (RAutoPk (RInt I64)) id));
    ("r#type", FV (existT rust (ROption (RInt I32)) None)); ("blog", FV (existT rust (ROption (RInt I64)) (Some 3%Z))) ].
Definition ex_new_tags : many Z := set_pending many_new [VInt 20; VInt 30] [].
Definition ex_tags_of (id : Z) (new removed : list SqlVal) : many Z :=
  {| m_table := "posts_tags_Many"; m_owner := Some (VBigInt id); m_otype := TBigInt; m_new := new; m_removed := removed; m_all := None |}.
Notation save_post := (save post_sem rv_valid rv_init post_code sqlite_like ex_kw Sqlite ex_engine posts_gen).
Notation post_ready := (ready table_resolve post_sem rv_valid rv_init post post_code Sqlite ex_engine posts_gen i64_key ex_posts).

Lemma ex_row_ok id title : (- 2 ^ 63 <= id < 2 ^ 63)%Z ->
  row_has (map fst (dr_columns (do_result post_code))) (ex_row id title)
  /\ exists x, field (do_pkcol post_code) (ex_row id title) = Some x /\ i64_key x.
Proof.
  intros H. split.
  - split; [repeat (constructor; [cbn; intuition discriminate|]); constructor|]. intros c Hc. exact Hc.
  - exists (VBigInt id). split; [reflexivity|]. exists id. auto.
Qed.
Lemma ex_posts_table : model_table ex_engine i64_key post_code ex_posts.
Proof. constructor; [apply ex_row_ok; lia|]. constructor; [apply ex_row_ok; lia|]. constructor. Qed.
(** A new post with two tags, and the stored post 3 with changes, can be saved. *)
Example ready_new : post_ready (ex_post None "third" ex_new_tags) (VBigInt 8).
Proof.
  split.
  - exact ex_posts_table.
  - intros u kv Hu Hv. vm_compute in Hu. inversion Hu; subst u. destruct Hv as [Hv|Hv]; vm_compute in Hv; discriminate.
  - intros u Hu _ _. vm_compute in Hu. inversion Hu; subst u. exists (VBigInt 8). split; [vm_compute; reflexivity|].
    split; [exists 8%Z; split; [reflexivity|lia]|]. split; [repeat constructor|].
    exists (existT rust (RAutoPk (RInt I64)) (Some 8%Z)). repeat split; vm_compute; reflexivity.
  - intros f Hf. vm_compute in Hf. destruct Hf as [<-|[]]. exists ex_new_tags. split; [reflexivity|]. split; [now left|].
    split; [exact I|]. unfold relation_table. rows_have.
Qed.
Example ready_stored : post_ready (ex_post (Some 3%Z) "changed" (ex_tags_of 3 [VInt 30] [VInt 10])) (VBigInt 3).
Proof.
  split.
  - exact ex_posts_table.
  - intros u kv Hu _ Hv. vm_compute in Hu. inversion Hu; subst u. vm_compute in Hv. inversion Hv. exists 3%Z. split; [reflexivity|lia].
  - intros u Hu _ Hv. vm_compute in Hu. inversion Hu; subst u. discriminate.
  - intros f Hf. vm_compute in Hf. destruct Hf as [<-|[]]. eexists. split; [reflexivity|]. split; [right; split; reflexivity|].
    split; [exact I|]. unfold relation_table. rows_have.
Qed.
Ltac survive := intros f u Hf Hu v Hv; vm_compute in Hf;
  repeat (destruct Hf as [<-|Hf]; [vm_compute in Hu; inversion Hu; subst u; vm_compute in Hv; inversion Hv; subst v; split; vm_compute; reflexivity|]);
  contradiction.

(** Both halves of a result, without computing the new database. *)
Lemma result3 {A B C} (r : A * B * C) a b : fst r = (a, b) -> r = (a, b, snd r).
Proof. destruct r as [[x y] z]. cbn. intros [= -> ->]. reflexivity. Qed.
Lemma result2 {A C} (r : A * C) a : fst r = a -> r = (a, snd r).
Proof. destruct r. cbn. intros ->. reflexivity. Qed.
Ltac has_key k := exists k; split; vm_compute; reflexivity.

(** Saving the new post, and changing the stored one. *)
Example C29_case :
  (exists o' w', save_post (ex_post None "third" ex_new_tags) posts_world = (Ok tt, o', w') /\ stores post_sem o' (do_pk post_code) (VBigInt 8)
     /\ fields_survive table_resolve post_sem post o'
     /\ length (w_db w' "posts") = 3 /\ partners ex_engine (w_db w') "posts_tags_Many" (VBigInt 8) = [VInt 30; VInt 20])
  /\ (exists o' w', save_post (ex_post (Some 3%Z) "changed" (ex_tags_of 3 [VInt 30] [VInt 10])) posts_world = (Ok tt, o', w')
     /\ stores post_sem o' (do_pk post_code) (VBigInt 3) /\ fields_survive table_resolve post_sem post o'
     /\ row_exists ex_engine post_code ex_posts (VBigInt 3)
     /\ map (field "title") (w_db w' "posts") = [Some (VText "first"); Some (VText "changed")]
     /\ partners ex_engine (w_db w') "posts_tags_Many" (VBigInt 3) = [VInt 30])
  /\ (exists w', delete post_sem post_code sqlite_like ex_kw Sqlite ex_engine posts_gen (ex_post (Some 7%Z) "" many_new) posts_world = (Ok tt, w')
     /\ map (field "title") (w_db w' "posts") = [Some (VText "second")]).
Proof.
  split; [|split].
  - exists (ex_post (Some 8%Z) "third" (ex_tags_of 8 [] [])), (snd (save_post (ex_post None "third" ex_new_tags) posts_world)).
    split; [apply result3; vm_compute; reflexivity|].
    split; [has_key (existT rust (RAutoPk (RInt I64)) (Some 8%Z))|]. split; [survive|]. split; vm_compute; reflexivity.
  - exists (ex_post (Some 3%Z) "changed" (ex_tags_of 3 [] [])),
      (snd (save_post (ex_post (Some 3%Z) "changed" (ex_tags_of 3 [VInt 30] [VInt 10])) posts_world)).
    split; [apply result3; vm_compute; reflexivity|].
    split; [has_key (existT rust (RAutoPk (RInt I64)) (Some 3%Z))|]. split; [survive|].
    split; [exists (ex_row 3 "second"); split; [right; now left|vm_compute; reflexivity]|]. split; vm_compute; reflexivity.
  - exists (snd (delete post_sem post_code sqlite_like ex_kw Sqlite ex_engine posts_gen (ex_post (Some 7%Z) "" many_new) posts_world)).
    split; [apply result2|]; vm_compute; reflexivity.
Qed.
(** A history: save the new post, change its title, another post appears, save again. *)
Example C30_history_case : exists o' w',
  history table_resolve post_sem rv_valid rv_init post post_code sqlite_like ex_kw Sqlite ex_engine posts_gen i64_key
    (ex_post None "third" ex_new_tags) posts_world o' w' 1
  /\ numbered_already rv_valid post_code o' /\ length (w_db w' "posts") = 3.
Proof.
  pose (r := save_post (ex_post None "third" ex_new_tags) posts_world).
  assert (E : r = (Ok tt, ex_post (Some 8%Z) "third" (ex_tags_of 8 [] []), snd r)) by (apply result3; vm_compute; reflexivity).
  exists (ex_post (Some 8%Z) "edited" (ex_tags_of 8 [] [])), (snd r). split.
  - apply (h_edit _ _ _ _ _ _ _ _ _ _ _ _ _ _ (ex_post (Some 8%Z) "third" (ex_tags_of 8 [] []))); [|vm_compute; reflexivity].
    change 1 with (0 + 1). eapply h_save.
    + apply h_start.
    + exact ready_new.
    + exact E.
    + has_key (existT rust (RAutoPk (RInt I64)) (Some 8%Z)).
    + vm_compute. reflexivity.
  - split; [|vm_compute; reflexivity]. split; [vm_compute; reflexivity|].
    exists (existT rust (RAutoPk (RInt I64)) (Some 8%Z)). split; vm_compute; reflexivity.
Qed.

(** A save of an object with an automatic key whose row is missing succeeds and
    stores nothing. *)
Theorem C30_missing_row_refuted : exists (o o' : @object rvalue (many Z)) w',
  numbered_already rv_valid post_code o /\ ~ row_exists ex_engine post_code ex_posts (VBigInt 12)
  /\ save_post o posts_world = (Ok tt, o', w') /\ stores post_sem o' (do_pk post_code) (VBigInt 12)
  /\ w_db w' "posts" = ex_posts "posts" /\ ~ row_exists ex_engine post_code (w_db w') (VBigInt 12).
Proof.
  assert (Hno : forall D, D "posts" = ex_posts "posts" -> ~ row_exists ex_engine post_code D (VBigInt 12)).
  { intros D HD (r & Hr & Hk). change (do_table post_code) with "posts" in Hr. rewrite HD in Hr.
    destruct Hr as [<-|[<-|[]]]; vm_compute in Hk; discriminate. }
  exists (ex_post (Some 12%Z) "gone" (ex_tags_of 12 [] [])), (ex_post (Some 12%Z) "gone" (ex_tags_of 12 [] [])),
    (snd (save_post (ex_post (Some 12%Z) "gone" (ex_tags_of 12 [] [])) posts_world)).
  split; [split; [vm_compute; reflexivity|]; exists (existT rust (RAutoPk (RInt I64)) (Some 12%Z)); split; vm_compute; reflexivity|].
  split; [now apply Hno|].
  split; [apply result3; vm_compute; reflexivity|]. split; [has_key (existT rust (RAutoPk (RInt I64)) (Some 12%Z))|]. split; [vm_compute; reflexivity|].
  apply Hno. vm_compute. reflexivity.
Qed.
Print Assumptions C30_missing_row_refuted.
(** When the reply to the first save is lost, saving again stores the object a
    second time. *)
Theorem C30_lost_reply_refuted : exists (o o1 o2 : @object rvalue (many Z)) w w1 w2 e,
  save_post o w = (Err e, o1, w1) /\ save_post o1 w1 = (Ok tt, o2, w2)
  /\ length (w_db w2 "posts") = 2 + length (w_db w "posts").
Proof.
  pose (w := {| w_db := ex_posts; w_fate := [Lost] |}).
  pose (o := ex_post None "third" many_new).
  pose (w1 := snd (save_post o w)). pose (o2 := ex_post (Some 9%Z) "third" (ex_tags_of 9 [] [])).
  exists o, o, o2, w, w1, (snd (save_post o w1)), (DbError 0).
  split; [apply result3; vm_compute; reflexivity|]. split; [apply result3; vm_compute; reflexivity|]. vm_compute; reflexivity.
Qed.
Print Assumptions C30_lost_reply_refuted.

(** A model whose key is a text chosen by the program. *)
Definition note : sdef :=
  {| st_ident := "Note"; st_attrs := [];
     st_fields := [ {| sf_ident := "name"; sf_ty := bare "String"; sf_attrs := [AttrPk] |};
                    f_plain "tags" (t_gen "Many" (bare "Tag")) ] |}.
Definition note_code : dbobject := match impl_dbobject table_resolve note with Ok g => g | _ => post_code end.
Definition ex_note (name : string) (m : many Z) : @object rvalue (many Z) := [("name", FV (existT rust RString name)); ("tags", FM m)].
Definition note_tags (name : string) (new : list SqlVal) : many Z :=
  {| m_table := "Note_tags_Many"; m_owner := Some (VText name); m_otype := TText; m_new := new; m_removed := []; m_all := None |}.
Definition ex_notes : db := fun t =>
  if String.eqb t "Note" then [[("name", VText "a")]; [("name", VText "b")]]
  else if String.eqb t "Note_tags_Many" then [[("owner", VText "a"); ("has", VInt 10)]] else [].
Definition notes_world : world := {| w_db := ex_notes; w_fate := [] |}.
Notation save_note := (save post_sem rv_valid rv_init note_code sqlite_like ex_kw Sqlite ex_engine ex_gen).
Example note_model : impl_dbobject table_resolve note = Ok note_code /\ do_auto note_code = false.
Proof. split; vm_compute; reflexivity. Qed.

(** An object whose key was changed after loading keeps adding to the relations of
    the old key. *)
Theorem C36_stale_owner_refuted : exists (o' : @object rvalue (many Z)) w',
  save_note (ex_note "c" (note_tags "a" [VInt 20])) notes_world = (Ok tt, o', w')
  /\ partners ex_engine (w_db w') "Note_tags_Many" (VText "c") = []
  /\ partners ex_engine (w_db w') "Note_tags_Many" (VText "a") = [VInt 10; VInt 20].
Proof.
  exists (ex_note "c" (note_tags "a" [])), (snd (save_note (ex_note "c" (note_tags "a" [VInt 20])) notes_world)).
  split; [apply result3; vm_compute; reflexivity|]. split; vm_compute; reflexivity.
Qed.
Print Assumptions C36_stale_owner_refuted.
(** delete leaves the relations of the object: a new object with the same key has
    them. *)
Theorem C36_deleted_owner_refuted : exists w1 (o2 : @object rvalue (many Z)) w2,
  delete post_sem note_code sqlite_like ex_kw Sqlite ex_engine ex_gen (ex_note "a" (note_tags "a" [])) notes_world = (Ok tt, w1)
  /\ save_note (ex_note "a" many_new) w1 = (Ok tt, o2, w2)
  /\ partners ex_engine (w_db w2) "Note_tags_Many" (VText "a") = [VInt 10].
Proof.
  pose (r := delete post_sem note_code sqlite_like ex_kw Sqlite ex_engine ex_gen (ex_note "a" (note_tags "a" [])) notes_world).
  exists (snd r), (ex_note "a" (note_tags "a" [])), (snd (save_note (ex_note "a" many_new) (snd r))).
  split; [apply result2; vm_compute; reflexivity|]. split; [apply result3|]; vm_compute; reflexivity.
Qed.
Print Assumptions C36_deleted_owner_refuted.
