(** The key returned is the new row's. *)
From Verif Require Import Base SqlVal Sql SqlStmt Query QuerySpec Stmt StmtSpec Adb AdbSpec LiteralSpec Ddl DdlSpec
  Backend BackendSpec BackendProofs Turso SqliteSem MigrateSpec SqliteData SqliteKey DataCalls KeyCall StoredSpec
  RenderProofs LexProofs TokProofs ParseProofs StmtProofs StmtParse StmtSem UpsertProofs StmtMain
  StoredRel MigrateProofs MigrateReady StoredProofs StoredMain StoredLoad.

Lemma key_text_reads kw dl t c : quotes_enough kw dl -> identifier t = true -> identifier c = true ->
  parse_by_number dl (key_text kw t c) = Some (c, t).
Proof.
  intros KW Ht Hc.
  assert (L : lex (key_text kw t c) = TWord "SELECT" :: qtok kw c :: TWord "FROM" :: qtok kw t :: TWord "WHERE" :: TWord "ROWID" :: TOp CEq
              :: TWord "last_insert_rowid" :: TLP :: [TRP]).
  { unfold lex, key_text. change (lex_from LStart ("SELECT " ++ ?x)) with (TWord "SELECT" :: lex_from LStart x). f_equal.
    rewrite lex_q; [|assumption|reflexivity]. f_equal.
    change (lex_from LStart (" FROM " ++ ?x)) with (TWord "FROM" :: lex_from LStart x). f_equal.
    rewrite lex_q; [|assumption|reflexivity]. reflexivity. }
  unfold parse_by_number, tokens. rewrite L.
  match goal with |- context [number_params 1 ?l] => assert (N : number_params 1 l = l) end.
  { unfold qtok. destruct (kw c), (kw t); reflexivity. }
  rewrite N. clear N.
  change (eat "SELECT" (TWord "SELECT" :: ?x)) with (Some x). cbv iota beta. rewrite (p_name_q dl kw KW).
  change (eat "FROM" (TWord "FROM" :: ?x)) with (Some x). cbv iota beta. rewrite (p_name_q dl kw KW). reflexivity.
Qed.

Lemma find_first {A} (p : A -> bool) l x : find p l = Some x -> In x l /\ p x = true.
Proof. apply find_some. Qed.

Section Key.
Variable json_text : string -> option string.
Variable E : engine.
Variable veq : lvalue -> lvalue -> bool.
Variable conv : bool -> list string -> lvalue -> option lvalue.
Variable strict : bool.
Hypothesis CS : compares_stored E veq.
Hypothesis NE : forall z, equal E (VBigInt z) (VBigInt z).
Variable d : ADB.
Hypothesis WF : wf_schema d.

Lemma equal_alike v w x y : alike v w -> alike x y -> equal E v x <-> equal E w y.
Proof. intros A B. unfold equal. now rewrite (cmp_alike E veq CS CEq _ _ _ _ A B). Qed.

(** The last row read back. *)
Lemma reads_cell t r y c ty v l : wf_table t -> row_fits json_text t r -> In c (t_cols t) -> type_denotes (c_type c) = inl (TyId ty) ->
  field (c_name c) r = Some v -> sqlite_write v = Ok l -> get y (c_name c) = Some l -> sqlite_read json_text l ty = Ok v.
Proof.
  intros WT RF Hc T Fv W _.
  pose proof (read_back json_text t r [c_name c] [ty] WT RF) as X.
  assert (K : Forall2 (kind_is t) [c_name c] [ty]) by (repeat constructor; exists c; auto).
  specialize (X K [v] [v]). unfold columns_of in X. cbn in X. rewrite Fv in X. specialize (X eq_refl).
  assert (A : Forall2 alike [v] [v]) by (repeat constructor; exists l; auto). specialize (X A). unfold read_row in X. cbn in X.
  rewrite W in X. cbn in X. destruct (sqlite_read json_text l ty); cbn in X; congruence.
Qed.

(** In the table [b'] the row [r] was added last. *)
Lemma number_found n t b b' D r : In (n, t) (a_tables d) -> table_is strict t b' -> Forall2 row_is (D ++ [r]) (b_rows b') ->
  Forall (row_fits json_text t) (D ++ [r]) ->
  (forall c i j r1 s x y, In c (t_cols t) -> c_pk c = true \/ c_unique c = true -> i < j ->
     nth_error (D ++ [r]) i = Some r1 -> nth_error (D ++ [r]) j = Some s -> field (c_name c) r1 = Some x -> field (c_name c) s = Some y -> ~ equal E x y) ->
  (forall c, In c (t_cols t) -> upper (c_name c) <> "ROWID") -> forall fresh z, last_number fresh b b' = Some z ->
  exists y, by_number veq b' z = [y] /\ row_is r y.
Proof.
  intros Hn TI R F U NR fresh z LN.
  apply Forall2_app_inv_l in R as (ys & l1 & R1 & R2 & EB). inversion R2 as [|? y ? l2 Ry R3]; subst. inversion R3; subst. clear R2 R3.
  exists y. split; [|exact Ry].
  unfold by_number. destruct (find hides_number (b_cols b')) as [k|] eqn:Ek.
  { apply find_some in Ek as [Hk Hh]. destruct TI as (_ & _ & _ & TI & _). destruct (TI k Hk) as (c & Hc & (Nk & _)).
    exfalso. apply (NR c Hc). rewrite <- Nk. now apply String.eqb_eq. }
  unfold last_number in LN. destruct (find rowid (b_cols b')) as [k|] eqn:Er.
  - apply find_some in Er as [Hk Hr]. rewrite EB in *. rewrite last_last in LN.
    destruct TI as (_ & _ & _ & TI & _). destruct (TI k Hk) as (c & Hc & (Nk & _ & _ & Pk & _)).
    unfold rowid in Hr. apply andb_true_iff in Hr as [Hp _]. rewrite Pk in Hp.
    destruct (get y (k_name k)) as [[|z'| | |]|] eqn:Gy; try discriminate LN. injection LN as ->.
    rewrite filter_app. cbn [filter]. unfold column_equals at 2. rewrite Gy.
    assert (VZ : veq (LInteger z) (LInteger z) = true) by (apply (cs_veq E veq CS); exact (NE z)). rewrite VZ.
    assert (NO : filter (column_equals veq k z) ys = []).
    { destruct (filter (column_equals veq k z) ys) as [|u us] eqn:Ef; [reflexivity|]. exfalso.
      assert (Hu : In u (filter (column_equals veq k z) ys)) by (rewrite Ef; now left). apply filter_In in Hu as [Hu Qu].
      destruct (Forall2_In_r _ _ _ u R1 Hu) as (r1 & Hr1 & Ru). unfold column_equals in Qu. rewrite Nk in *.
      pose proof (row_is_get (c_name c) r1 u Ru) as G1. destruct (get u (c_name c)) as [l1|] eqn:Gu; [|discriminate Qu].
      destruct (field (c_name c) r1) as [x1|] eqn:F1; [|destruct G1]. cbn in G1.
      pose proof (row_is_get (c_name c) r y Ry) as G2. rewrite Gy in G2. destruct (field (c_name c) r) as [x2|] eqn:F2; [|destruct G2]. cbn in G2.
      apply In_nth_error in Hr1 as (i & Hi).
      assert (Li : i < List.length D) by (apply nth_error_Some; congruence).
      apply (U c i (List.length D) r1 r x1 x2 Hc (or_introl Hp) Li).
      - rewrite nth_error_app1 by assumption. exact Hi.
      - rewrite nth_error_app2 by lia. now rewrite Nat.sub_diag.
      - exact F1.
      - exact F2.
      - apply (cs_veq E veq CS) in Qu. revert Qu. apply equal_alike; now apply alike_val. }
    rewrite NO. reflexivity.
  - rewrite EB. destruct (ys ++ [y]) eqn:X; [now destruct ys|]. rewrite <- X. now rewrite last_last.
Qed.

Lemma number_cell t r c l v : wf_table t -> row_fits json_text t r -> In c (t_cols t) -> c_pk c = true -> word c = "INTEGER" ->
  field (c_name c) r = Some v -> sqlite_write v = Ok l -> exists z, l = LInteger z.
Proof.
  intros WT (_ & _ & N3) Hc P W Fv Wv. rewrite Forall_forall in N3.
  destruct (N3 _ (field_pair _ _ _ Fv)) as (c' & Hc' & Nc' & (ty & T & OK & _ & NC & _ & NN)). cbn [fst snd] in *.
  assert (Ec : c' = c). { clear -WT Hc Hc' Nc'. destruct WT as [ND _]. induction (t_cols t) as [|a cs IH]; [destruct Hc|]. cbn in ND. inversion ND as [|? ? M1 M2]; subst.
    destruct Hc as [->|Hc], Hc' as [->|Hc']; auto; exfalso; apply M1; [rewrite <- Nc'|rewrite Nc']; now apply in_map. }
  subst c'. unfold word in W. rewrite T in W. destruct OK as [->|OK]; [destruct (NN eq_refl) as [_ X]; congruence|].
  destruct v; cbn in OK; try discriminate OK; injection OK as <-; cbn in W; try discriminate W; cbn in Wv; injection Wv as <-; eauto.
Qed.
Lemma number_known n t b b' r y ys : In (n, t) (a_tables d) -> table_is strict t b' -> b_rows b' = ys ++ [y] -> row_fits json_text t r -> row_is r y ->
  forall fresh, exists z, last_number fresh b b' = Some z.
Proof.
  intros Hn (_ & _ & _ & TI & _) EB RF R fresh. unfold last_number. destruct (find rowid (b_cols b')) as [k|] eqn:Er; [|eauto].
  apply find_some in Er as [Hk Hr]. rewrite EB, last_last. destruct (TI k Hk) as (c & Hc & (Nk & Ty & _ & Pk & _)).
  unfold rowid in Hr. apply andb_true_iff in Hr as [Hp Hw]. rewrite Pk in Hp. rewrite Ty in Hw. apply String.eqb_eq in Hw.
  destruct (fits_has_get json_text t r y c RF R Hc) as (v & l & Fv & Gl & W). rewrite Nk, Gl.
  destruct WF as [_ WF']. destruct (WF' n t Hn) as [_ WT].
  destruct (number_cell t r c l v WT RF Hc Hp Hw Fv W) as (z & ->). eauto.
Qed.
(** With one integer key, the number is that key's. *)
Lemma number_is_key n t b b' r y ys c ty v fresh z : In (n, t) (a_tables d) -> table_is strict t b' -> b_rows b' = ys ++ [y] -> row_fits json_text t r -> row_is r y ->
  In c (t_cols t) -> c_pk c = true -> (forall c', In c' (t_cols t) -> c_pk c' = true -> c' = c) -> word c = "INTEGER" ->
  type_denotes (c_type c) = inl (TyId ty) -> field (c_name c) r = Some v -> last_number fresh b b' = Some z ->
  turso_value_to_sqlval_typed json_text (TvInteger z) ty = Ok v.
Proof.
  intros Hn (SB & ND & TI1 & TI & TI3) EB RF R Hc P ONE W T Fv LN. unfold last_number in LN.
  destruct (declared strict t b' c (conj SB (conj ND (conj TI1 (conj TI TI3)))) Hc) as (k & _ & Hk & (Nk & Ty & _ & Pk & _)).
  destruct (find rowid (b_cols b')) as [k'|] eqn:Er.
  - apply find_some in Er as [Hk' Hr]. destruct (TI k' Hk') as (c' & Hc' & (Nk' & _ & _ & Pk' & _)).
    unfold rowid in Hr. apply andb_true_iff in Hr as [Hp Hw]. rewrite Pk' in Hp. rewrite (ONE c' Hc' Hp) in Nk'.
    rewrite EB, last_last in LN. destruct (fits_has_get json_text t r y c RF R Hc) as (v' & l & Fv' & Gl & Wv). rewrite Fv in Fv'. injection Fv' as <-.
    rewrite Nk', Gl in LN. destruct WF as [_ WF']. destruct (WF' n t Hn) as [_ WT].
    destruct (number_cell t r c l v WT RF Hc P W Fv Wv) as (z' & ->). injection LN as ->.
    destruct RF as (_ & _ & N3). rewrite Forall_forall in N3.
    destruct (N3 _ (field_pair _ _ _ Fv)) as (c2 & Hc2 & Nc2 & (ty' & T' & OK & VO & NC & _ & NN)). cbn [fst snd] in *.
    assert (Ec : c2 = c). { clear -WT Hc Hc2 Nc2. destruct WT as [ND _]. induction (t_cols t) as [|a cs IH]; [destruct Hc|]. cbn in ND. inversion ND as [|? ? M1 M2]; subst.
      destruct Hc as [->|Hc], Hc2 as [->|Hc2]; auto; exfalso; apply M1; [rewrite <- Nc2|rewrite Nc2]; now apply in_map. }
    subst c2. rewrite T in T'. injection T' as <-.
    assert (NN' : ~ sqlval_nan v) by (intros (r0 & -> & _); discriminate Wv).
    destruct (turso_roundtrip json_text v ty VO OK NC NN') as (x & X1 & X2 & _).
    destruct v; cbn in Wv; try discriminate Wv; injection Wv as <-; cbn in X1; injection X1 as <-; exact X2.
  - exfalso. pose proof (find_none _ _ Er k Hk) as X. unfold rowid in X. rewrite Pk, P, Ty, W in X. discriminate X.
Qed.
End Key.
