(** Replacing subqueries by the values they select. *)
From Coq Require Import Permutation.
From Verif Require Import Base SqlVal Sql SqlStmt Query QuerySpec Stmt StmtSpec Time Turso TursoSpec
  LexProofs RenderProofs TokProofs ParseProofs StmtProofs StmtParse StmtSem StmtMain MacroProofs.

(** * Values *)

Lemma to_turso_stored v t : sqlval_to_turso v = Ok t <-> stored v t.
Proof.
  split.
  - destruct v; cbn; intros H; try discriminate; injection H as <-; try constructor. destruct b; constructor.
  - now destruct 1.
Qed.
Lemma untyped_stored t : stored (turso_value_to_sqlval_untyped t) t.
Proof. destruct t; constructor. Qed.
Lemma storable_params vs : storable vs -> exists ps, collect_all sqlval_to_turso vs = Ok ps /\ Forall2 stored vs ps.
Proof.
  induction 1 as [|v vs [t Ht] _ (ps & E & F)]; [exists []; split; [reflexivity|constructor]|].
  exists (t :: ps). cbn [collect_all]. apply to_turso_stored in Ht as Hv. rewrite Hv, E. split; [reflexivity|now constructor].
Qed.
Lemma firsts vs (rows : list (list tvalue)) : Forall2 (Forall2 stored) (map (fun v => [v]) vs) rows ->
  exists ts, collect_all first_value rows = Ok ts /\ Forall2 stored vs ts.
Proof.
  revert rows. induction vs as [|v vs IH]; intros rows F; inversion F as [|? r ? rs Hr Hrs]; subst.
  - exists []. split; [reflexivity|constructor].
  - inversion Hr as [|? t ? ? Ht Hn]; subst. inversion Hn; subst. destruct (IH rs Hrs) as (ts & E & F2).
    exists (t :: ts). cbn [collect_all first_value obind]. rewrite E. split; [reflexivity|now constructor].
Qed.

(** * Membership *)

Lemma in3_false E x l : in3 E x l = Some false <-> forall v, In v l -> compare3 E CEq x v = Some false.
Proof.
  induction l as [|v l IH]; [split; [intros _ v []|reflexivity]|]. cbn [in3 fold_right]. fold (in3 E x l). split.
  - intros H w [<-|Hw].
    + destruct (compare3 E CEq x v) as [[|]|], (in3 E x l) as [[|]|]; try discriminate H. reflexivity.
    + apply IH; [|exact Hw]. destruct (compare3 E CEq x v) as [[|]|], (in3 E x l) as [[|]|]; try discriminate H. reflexivity.
  - intros H. rewrite (H v) by now left. rewrite (proj2 IH); [reflexivity|]. intros w Hw. apply H. now right.
Qed.
Lemma in3_alike E x l l' :
  (forall v, In v l -> exists w, In w l' /\ compare3 E CEq x w = compare3 E CEq x v) ->
  (forall w, In w l' -> exists v, In v l /\ compare3 E CEq x v = compare3 E CEq x w) -> in3 E x l = in3 E x l'.
Proof.
  intros H1 H2.
  assert (T : in3 E x l = Some true <-> in3 E x l' = Some true).
  { rewrite !in3_true. split.
    - intros (v & Hv & C). destruct (H1 v Hv) as (w & Hw & Q). exists w. split; [assumption|congruence].
    - intros (v & Hv & C). destruct (H2 v Hv) as (w & Hw & Q). exists w. split; [assumption|congruence]. }
  assert (F : in3 E x l = Some false <-> in3 E x l' = Some false).
  { rewrite !in3_false. split.
    - intros H v Hv. destruct (H2 v Hv) as (w & Hw & <-). auto.
    - intros H v Hv. destruct (H1 v Hv) as (w & Hw & <-). auto. }
  destruct (in3 E x l) as [[|]|], (in3 E x l') as [[|]|]; try reflexivity;
    try (destruct T as [T1 T2], F as [F1 F2]; (discriminate (T1 eq_refl) || discriminate (T2 eq_refl) || discriminate (F1 eq_refl) || discriminate (F2 eq_refl))).
Qed.
Lemma compare3_cmp E x v w : e_cmp E x v = e_cmp E x w -> compare3 E CEq x v = compare3 E CEq x w.
Proof. intros H. unfold compare3. now rewrite H. Qed.

(** * Possible results *)

Lemma all_some_map_ext {A B} (f g : A -> option B) l : (forall x, f x = g x) -> all_some (map f l) = all_some (map g l).
Proof. intros H. induction l as [|a l IH]; [reflexivity|]. cbn. now rewrite H, IH. Qed.
Lemma project_one c fs vs : all_some (map (fun f => lookup c [f]) fs) = Some vs ->
  project [c] fs = Some (map (fun v => [v]) vs).
Proof.
  unfold project. revert vs. induction fs as [|f fs IH]; intros vs; cbn [map all_some]; [intros H; now injection H as <-|].
  destruct (lookup c [f]) as [v|]; [|discriminate]. cbn [option_map all_some]. destruct (all_some (map (fun f => lookup c [f]) fs)) as [l|]; [|discriminate].
  cbn [option_map]. intros H. injection H as <-. specialize (IH l eq_refl). cbn [map all_some option_map] in IH |- *. rewrite IH. reflexivity.
Qed.
Lemma all_some_perm {A B} (f : A -> option B) l l' vs : Permutation l l' -> all_some (map f l) = Some vs ->
  exists vs', all_some (map f l') = Some vs' /\ Permutation vs vs'.
Proof.
  intros P. revert vs. induction P as [|a l l' P IH|a b l|l l1 l2 P1 IH1 P2 IH2]; intros vs; cbn [map all_some].
  - intros H. injection H as <-. exists []. split; [reflexivity|constructor].
  - destruct (f a) as [x|]; [|discriminate]. destruct (all_some (map f l)) as [m|]; [|discriminate]. cbn. intros H. injection H as <-.
    destruct (IH m eq_refl) as (m' & -> & Pm). eexists. split; [reflexivity|]. now constructor.
  - destruct (f b) as [y|]; [|discriminate]. destruct (f a) as [x|]; [|discriminate]. destruct (all_some (map f l)) as [m|]; [|discriminate].
    cbn. intros H. injection H as <-. eexists. split; [reflexivity|]. constructor.
  - intros H. destruct (IH1 vs H) as (m & Hm & Pm). destruct (IH2 m Hm) as (m' & Hm' & Pm'). exists m'. split; [assumption|]. now transitivity m.
Qed.
Lemma sorted_any (fs : list frame) : StronglySorted (fun _ _ => True) fs.
Proof. induction fs; constructor; [assumption|]. apply Forall_forall. auto. Qed.

Definition distinct_select c2 t js x : select :=
  {| sel_distinct := true; sel_cols := [c2]; sel_table := t; sel_joins := js; sel_where := Some x;
     sel_order := []; sel_limit := None; sel_offset := None |}.

Section Results.
Variables (d : dialect) (E : engine) (D : db).

(** Distinct values among given ones. *)
Lemma distinct_exists (l : list SqlVal) : (forall a b, {e_ord E a b = Eq} + {e_ord E a b <> Eq}) ->
  (forall a, e_ord E a a = Eq) -> exists l', distinct_of E (map (fun v => [v]) l) (map (fun v => [v]) l').
Proof.
  intros Dec Refl.
  assert (S : forall a b, same_row E [a] [b] <-> e_ord E a b = Eq).
  { intros a b. split; [intros H; now inversion H|intros H; constructor; [assumption|constructor]]. }
  induction l as [|v l (l' & I & C & P)].
  - exists []. split; [apply incl_refl|]. split; [intros r []|constructor].
  - destruct (Exists_dec (fun w => e_ord E v w = Eq) l' (fun w => Dec v w)) as [X|X].
    + exists l'. split; [now apply incl_tl|]. split; [|assumption]. intros r [<-|Hr].
      * apply Exists_exists in X as (w & Hw & Q). exists [w]. split; [now apply (in_map (fun v => [v]))|now apply S].
      * destruct (C r Hr) as (r' & Hr' & Q). eauto.
    + exists (v :: l'). split; [|split].
      * intros r [<-|Hr]; [now left|right; now apply I].
      * intros r [<-|Hr]; [exists [v]; split; [now left|now apply S]|]. destruct (C r Hr) as (r' & Hr' & Q). exists r'. split; [now right|assumption].
      * cbn [map]. constructor; [|assumption]. apply Forall_forall. intros r Hr. apply in_map_iff in Hr as (w & <- & Hw).
        rewrite S. intros Q. apply X, Exists_exists. eauto.
Qed.

Lemma distinct_results V c2 t js x (vs : list SqlVal) out fs sel :
  stores_alike E ->
  join_frames E D [] js (base_frames D t) = Some fs -> select_frames (fun f => struth E D V [f] x) fs = Some sel ->
  all_some (map (fun f => lookup c2 [f]) sel) = Some vs ->
  select_returns d E D V (distinct_select c2 t js x) out ->
  exists ws, out = map (fun v => [v]) ws
    /\ (forall y, in3 E y ws = in3 E y vs).
Proof.
  intros A Hj Hs Hv (fs0 & fs' & win & Sel & [P _] & W & all & Pr & I & Cv & _).
  unfold selected in Sel. cbn [sel_joins sel_table sel_where distinct_select] in Sel. rewrite Hj in Sel. cbn [obind2] in Sel.
  rewrite Hs in Sel. injection Sel as <-. unfold window in W. cbn in W. injection W as <-.
  destruct (all_some_perm _ _ _ _ P Hv) as (vs' & Hv' & Pv).
  cbn [sel_cols distinct_select] in Pr. rewrite (project_one _ _ _ Hv') in Pr. injection Pr as <-.
  assert (Q : exists ws, out = map (fun v => [v]) ws /\ incl ws vs').
  { clear - I. induction out as [|r out IH]; [exists []; split; [reflexivity|intros v []]|].
    destruct IH as (ws & -> & Iw); [intros r' Hr'; apply I; now right|].
    assert (Hr : In r (map (fun v => [v]) vs')) by (apply I; now left). apply in_map_iff in Hr as (v & <- & Hv).
    exists (v :: ws). split; [reflexivity|]. intros w [<-|Hw]; auto. }
  destruct Q as (ws & -> & Iw). exists ws. split; [reflexivity|]. intros y. symmetry. apply in3_alike.
  - intros v Hin. apply (Permutation_in _ Pv) in Hin. destruct (Cv [v]) as (r' & Hr' & Sr); [now apply (in_map (fun v => [v]))|].
    apply in_map_iff in Hr' as (w & <- & Hw). exists w. split; [assumption|]. inversion Sr as [|? ? ? ? Q ?]; subst.
    apply compare3_cmp. symmetry. now apply (alike_distinct E A).
  - intros w Hw. exists w. split; [|reflexivity]. apply (Permutation_in _ (Permutation_sym Pv)). now apply Iw.
Qed.

Lemma distinct_possible V c2 t js x vs fs sel :
  (forall a, e_ord E a a = Eq) ->
  join_frames E D [] js (base_frames D t) = Some fs -> select_frames (fun f => struth E D V [f] x) fs = Some sel ->
  all_some (map (fun f => lookup c2 [f]) sel) = Some vs ->
  exists out, select_returns d E D V (distinct_select c2 t js x) out.
Proof.
  intros Refl Hj Hs Hv. destruct (distinct_exists vs) as (l' & Dl); [intros a b; destruct (e_ord E a b); [now left|now right|now right]|assumption|].
  exists (map (fun v => [v]) l'), sel, sel, sel. split.
  - unfold selected. cbn [sel_joins sel_table sel_where distinct_select]. rewrite Hj. exact Hs.
  - split; [split; [reflexivity|]|].
    + cbn [sel_order distinct_select]. apply sorted_any.
    + split; [reflexivity|]. exists (map (fun v => [v]) vs). split; [|exact Dl]. now apply project_one.
Qed.
End Results.

(** * Texts *)

Section Texts.
Variables (d : dialect) (kw : string -> bool).
Hypothesis KW : quotes_enough kw d.
Notation says := (says unit q_at).
Notation toks := (toks kw ptok).

Lemma says_column (limit : nat) c : column_ok d c -> says limit Z.of_nat (sql_column kw unit c) (fun _ => kcol kw c) [] 0 false false.
Proof.
  intros H. exists (fun _ => tcol kw c), (fun _ => kcol kw c). split; [apply writes_column|]. split; [|split].
  - intros k r _ _ [|Hr]; [discriminate|]. now apply (lex_col kw d).
  - discriminate.
  - apply numbers_fix. unfold kcol. destruct (col_table c); [|exact I]. apply (no_q_app [_] (TDot :: [_])); [apply qtok_no_q|].
    apply (no_q_app [TDot] [_]); [exact I|apply qtok_no_q].
Qed.
Lemma says_joins (limit : nat) js : List.length js <= 1 ->
  Forall (fun j => identifier (join_table j) = true /\ column_ok d (join_col1 j) /\ column_ok d (join_col2 j)) js ->
  says limit Z.of_nat (sql_joins kw unit js) (fun _ => flat_map (kjoin kw) js) [] 0 false false.
Proof.
  intros L F. exists (fun _ => tjoins kw js), (fun _ => flat_map (kjoin kw) js). split; [apply writes_joins|]. split; [|split].
  - intros k r _ _ [|Hr]; [discriminate|]. now apply (lex_joins kw d).
  - discriminate.
  - apply numbers_fix.
    assert (Kc : forall c, no_q (kcol kw c)).
    { intros c. unfold kcol. destruct (col_table c); [|exact I]. apply (no_q_app [_] (TDot :: [_])); [apply qtok_no_q|].
      apply (no_q_app [TDot] [_]); [exact I|apply qtok_no_q]. }
    clear L F. induction js as [|j js IH]; [exact I|]. cbn [flat_map]. apply no_q_app; [|exact IH]. unfold kjoin.
    apply (no_q_app [TWord "INNER"; TWord "JOIN"; _] _); [|].
    + apply (no_q_app [TWord "INNER"; TWord "JOIN"] [_]); [exact I|apply qtok_no_q].
    + apply (no_q_app [TWord "ON"] _); [exact I|]. apply no_q_app; [apply Kc|]. apply (no_q_app [TOp CEq] _); [exact I|apply Kc].
Qed.

Ltac fixedw w :=
  let tk := eval vm_compute in (lex w) in
  first [ apply (says_fixed unit q_at _ Z.of_nat w tk true true); [intros; reflexivity|exact I|intros; reflexivity]
        | apply (says_fixed unit q_at _ Z.of_nat w tk true false); [intros; reflexivity|exact I|discriminate] ].
Ltac said :=
  lazymatch goal with
  | |- StmtProofs.says _ _ _ _ (andthen _ _ _) _ _ _ _ _ => eapply says_seq; [said|said|reflexivity]
  | |- StmtProofs.says _ _ _ _ (wr _ (quote_reserved_word _ _)) _ _ _ _ _ => eapply says_q; eassumption
  | |- StmtProofs.says _ _ _ _ (wr _ ?w) _ _ _ _ _ => fixedw w
  | |- _ => eassumption
  end.
Definition sub_toks (ctoks : list tok) t js a (k : nat) : list tok :=
  TWord "SELECT" :: TWord "DISTINCT" :: ctoks ++ TWord "FROM" :: qtok kw t :: flat_map (kjoin kw) js ++ TWord "WHERE" :: toks k a.

Lemma simple_tokens t tc a : identifier t = true -> identifier tc = true -> bracket_free Anywhere a -> supported d a ->
  exists s, run unit tt (simple_subquery kw t tc a) = Ok (s, bound_values a)
    /\ tokens s = sub_toks [qtok kw tc] t [] a 1.
Proof.
  intros Ht Hc B S. assert (N := bracket_free_no_empty a _ B).
  destruct (run_q (simple_subquery kw t tc a) (sub_toks [qtok kw tc] t [] a) (bound_values a) (nph a) false false) as (s & Es & Et & _); [|eauto].
  unfold simple_subquery.
  pose proof (says_cond kw d unit q_next q_at (Datatypes.S (nph a)) (fun _ => "?"%string) (fun _ => TQ) Z.of_nat (q_next_ok _) (q_lex _) q_num a N S) as C.
  eapply says_ext; [said| |reflexivity|reflexivity].
  intros k. cbn [List.app Nat.add]. now rewrite !Nat.add_0_r.
Qed.
Lemma join_tokens t c2 js a : identifier t = true -> column_ok d c2 -> List.length js <= 1 ->
  Forall (fun j => identifier (join_table j) = true /\ column_ok d (join_col1 j) /\ column_ok d (join_col2 j)) js ->
  bracket_free Anywhere a -> supported d a ->
  exists s, run unit tt (join_subquery kw t c2 js a) = Ok (s, bound_values a)
    /\ tokens s = sub_toks (kcol kw c2) t js a 1.
Proof.
  intros Ht Hc Hl Hj B S. assert (N := bracket_free_no_empty a _ B).
  destruct (run_q (join_subquery kw t c2 js a) (sub_toks (kcol kw c2) t js a) (bound_values a) (nph a) false false) as (s & Es & Et & _); [|eauto].
  unfold join_subquery.
  pose proof (says_cond kw d unit q_next q_at (Datatypes.S (nph a)) (fun _ => "?"%string) (fun _ => TQ) Z.of_nat (q_next_ok _) (q_lex _) q_num a N S) as C.
  pose proof (says_column (Datatypes.S (nph a)) c2 Hc) as C2. pose proof (says_joins (Datatypes.S (nph a)) js Hl Hj) as J.
  eapply says_ext; [said| |reflexivity|reflexivity].
  intros k. unfold sub_toks. cbn [List.app Nat.add]. rewrite !Nat.add_0_r, <- !app_assoc. cbn [List.app]. rewrite <- ?app_assoc. reflexivity.
Qed.

Lemma sub_parsed t c2 ctoks js a : filter_can d (Some a) ->
  (forall r, no_dot r -> p_colref d (ctoks ++ r) = Some (c2, r)) -> ctoks <> [] ->
  Forall (fun j => identifier (join_table j) = true /\ column_ok d (join_col1 j) /\ column_ok d (join_col2 j)) js ->
  exists x, reads 1 a x
    /\ p_stmt d (sub_toks ctoks t js a 1) = Some (Select (distinct_select c2 t (joins_of js) x), []).
Proof.
  intros Fa Hc NE Hj. destruct (cond_parsed d kw KW 1 a Fa) as (x & Hx & Hr). exists x. split; [assumption|].
  unfold p_stmt, p_select, sub_toks.
  change (eat "SELECT" (TWord "SELECT" :: ?x)) with (Some x). cbv beta iota.
  change (eat "DISTINCT" (TWord "DISTINCT" :: ?x)) with (Some x). cbv beta iota.
  set (rest := TWord "FROM" :: qtok kw t :: flat_map (kjoin kw) js ++ TWord "WHERE" :: toks 1 a).
  assert (P : forall fu, p_sep (p_colref d) fu (ctoks ++ rest) = Some ([c2], rest)).
  { intros fu. destruct fu; cbn [p_sep]; rewrite Hc by exact I; reflexivity. }
  rewrite P. unfold rest at 1. change (eat "FROM" (TWord "FROM" :: ?x)) with (Some x). cbv beta iota.
  rewrite (p_name_q d kw KW). 
  assert (Lj : forall ys, List.length js <= List.length (flat_map (kjoin kw) js ++ ys)).
  { intros ys. rewrite app_length. clear. induction js as [|j js IH]; [cbn; lia|]. cbn [flat_map List.length]. rewrite app_length. unfold kjoin at 1. cbn [List.length]. lia. }
  rewrite (p_joins_q d kw KW); [|assumption|apply Lj].
  unfold p_where. change (eat "WHERE" (TWord "WHERE" :: ?x)) with (Some x). cbv beta iota.
  rewrite <- (app_nil_r (toks 1 a)), Hx; [reflexivity|repeat split].
Qed.

(** ** Counting SELECTs *)

Notation nosel ts := (filter (is_kw "SELECT") ts = []).
Lemma nosel_app a b : nosel a -> nosel b -> nosel (a ++ b).
Proof. intros Ha Hb. rewrite filter_app, Ha, Hb. reflexivity. Qed.
Lemma nosel_word w : reserved d w = false -> is_kw "SELECT" (TWord w) = false.
Proof.
  intros R. destruct (is_kw "SELECT" (TWord w)) eqn:E; [|reflexivity].
  pose proof (core_eat d "SELECT" w [] ltac:(cbv; tauto) R) as X. cbn [eat] in X. rewrite E in X. discriminate.
Qed.
Lemma nosel_q w : nosel [qtok kw w].
Proof.
  unfold qtok. destruct (kw w) eqn:E; [reflexivity|]. cbn [filter]. rewrite nosel_word; [reflexivity|].
  destruct (reserved d w) eqn:R; [|reflexivity]. apply KW in R. congruence.
Qed.
Lemma nosel_kcol c : column_ok d c -> nosel (kcol kw c).
Proof.
  unfold column_ok, kcol. destruct (col_table c).
  - intros _. apply (nosel_app [_] (TDot :: [_])); [apply nosel_q|]. apply (nosel_app [TDot] [_]); [reflexivity|apply nosel_q].
  - intros [_ R]. cbn [filter]. now rewrite nosel_word.
Qed.
Lemma nosel_kjoin j : column_ok d (join_col1 j) -> column_ok d (join_col2 j) -> nosel (kjoin kw j).
Proof.
  intros H1 H2. unfold kjoin. apply (nosel_app [TWord "INNER"; TWord "JOIN"; _] _).
  - apply (nosel_app [TWord "INNER"; TWord "JOIN"] [_]); [reflexivity|apply nosel_q].
  - apply (nosel_app [TWord "ON"] _); [reflexivity|]. apply nosel_app; [now apply nosel_kcol|].
    apply (nosel_app [TOp CEq] _); [reflexivity|now apply nosel_kcol].
Qed.
Lemma nosel_val k v : nosel (kval ptok k v).
Proof. destruct v; try reflexivity; cbn [kval]; unfold znum; destruct (Z.to_int i); reflexivity. Qed.
Lemma nosel_vals k vs : nosel (kvals ptok k vs).
Proof.
  revert k. induction vs as [|v [|w vs] IH]; intros k; [reflexivity|apply nosel_val|]. cbn [kvals].
  apply nosel_app; [apply nosel_val|]. apply (nosel_app [TComma] _); [reflexivity|apply IH].
Qed.
Lemma nosel_op k x : operand_ok x -> nosel (kop kw ptok k x).
Proof. destruct x; cbn [operand_ok kop]; intros H; try contradiction; [apply nosel_q|apply nosel_val]. Qed.
Lemma nosel_cmp c o k x : bare_name d c /\ operand_ok x -> is_kw "SELECT" o = false -> nosel (TWord c :: o :: kop kw ptok k x).
Proof.
  intros [[_ R] H] Ho. apply (nosel_app [TWord c; o] _); [|now apply nosel_op]. cbn [filter]. now rewrite nosel_word, Ho.
Qed.
Lemma nosel_toks e : supported d e -> no_subquery e -> forall k, nosel (toks k e).
Proof.
  induction e as [|c x H|c x H|c x H|c x H|c x H|c x H|c x H|l H|a b Ha Hb|a b Ha Hb|a Ha|c t tc a Ha|c vs|c t c2 js a Ha]
    using filter_ind; cbn [supported no_subquery]; intros S N k; try contradiction.
  - reflexivity.
  - destruct x as [|[]| |]; try (apply nosel_cmp; [exact S|reflexivity]).
    cbn [TokProofs.toks filter]. rewrite nosel_word by apply S. reflexivity.
  - destruct x as [|[]| |]; try (apply nosel_cmp; [exact S|reflexivity]).
    cbn [TokProofs.toks filter]. rewrite nosel_word by apply S. reflexivity.
  - apply nosel_cmp; [exact S|reflexivity].
  - apply nosel_cmp; [exact S|reflexivity].
  - apply nosel_cmp; [exact S|reflexivity].
  - apply nosel_cmp; [exact S|reflexivity].
  - apply nosel_cmp; [exact S|reflexivity].
  - rewrite toks_AllOf. revert k. induction l as [|x [|y l] IH]; intros k; [reflexivity| |]; inversion H; subst; destruct S as [Sx Sl], N as [Nx Nl].
    + cbn [toks_all]. auto.
    + cbn [toks_all]. apply nosel_app; [auto|]. apply (nosel_app [TWord "AND"] _); [reflexivity|]. apply IH; auto.
  - destruct S, N. cbn [TokProofs.toks]. apply nosel_app; [auto|]. apply (nosel_app [TWord "AND"] _); [reflexivity|auto].
  - destruct S, N. cbn [TokProofs.toks]. apply nosel_app; [auto|]. apply (nosel_app [TWord "OR"] _); [reflexivity|auto].
  - cbn [TokProofs.toks]. apply (nosel_app [TWord "NOT"] _); [reflexivity|auto].
  - cbn [TokProofs.toks]. apply (nosel_app [_] _); [apply nosel_q|]. apply (nosel_app [TWord "IN"; TLP] _); [reflexivity|].
    apply nosel_app; [apply nosel_vals|reflexivity].
Qed.
Lemma nosel_joins js : Forall (fun j => identifier (join_table j) = true /\ column_ok d (join_col1 j) /\ column_ok d (join_col2 j)) js ->
  nosel (flat_map (kjoin kw) js).
Proof.
  induction 1 as [|j js (_ & H1 & H2) _ IH]; [reflexivity|]. cbn [flat_map]. apply nosel_app; [now apply nosel_kjoin|exact IH].
Qed.
Lemma sub_selects ctoks t js a k s : tokens s = sub_toks ctoks t js a k -> nosel ctoks -> nosel (flat_map (kjoin kw) js) ->
  supported d a -> no_subquery a -> selects s = 1.
Proof.
  intros Et Hc Hj Sa Na. unfold selects. rewrite Et. unfold sub_toks.
  replace (filter (is_kw "SELECT") _) with [TWord "SELECT"]; [reflexivity|].
  change (filter (is_kw "SELECT") (TWord "SELECT" :: TWord "DISTINCT" :: ?l)) with (TWord "SELECT" :: filter (is_kw "SELECT") l).
  f_equal. symmetry. apply nosel_app; [assumption|]. apply (nosel_app [TWord "FROM"] _); [reflexivity|].
  apply (nosel_app [_] _); [apply nosel_q|]. apply nosel_app; [assumption|].
  apply (nosel_app [TWord "WHERE"] _); [reflexivity|]. now apply nosel_toks.
Qed.

(** * The transformation *)

Section Run.
Variables (E : engine) (D : db).
Variable C : Type.
Variable conn_query : C -> string -> list tvalue -> outcome (list (list tvalue)) * C.
Hypothesis EK : engine_ok E.
Hypothesis SA : stores_alike E.
Hypothesis AN : answers C conn_query d E D.
Hypothesis EI : d_empty_in d = true.
Notation transform := (transform_subqueries kw C conn_query).

Lemma untyped_alike ws ts : Forall2 stored ws ts -> forall y, in3 E y (map turso_value_to_sqlval_untyped ts) = in3 E y ws.
Proof.
  induction 1 as [|w t ws ts H _ IH]; intros y; [reflexivity|]. cbn [map in3 fold_right]. unfold in3 in IH. rewrite IH. f_equal.
  apply compare3_cmp. eapply (alike_stored E SA); [apply untyped_stored|exact H].
Qed.
Lemma select_as_struth a x fs sel : reads 1 a x -> select_frames (fun f' => means E D f' a) fs = Some sel ->
  select_frames (fun f => struth E D (bound_values a) [f] x) fs = Some sel.
Proof.
  intros R. apply select_frames_ext. intros f t M. now apply reads_truth.
Qed.

Lemma run_subquery_correct c w s ctoks c2 t js a fs sel vs :
  run unit tt w = Ok (s, bound_values a) -> tokens s = sub_toks ctoks t js a 1 ->
  filter_can d (Some a) -> (forall r, no_dot r -> p_colref d (ctoks ++ r) = Some (c2, r)) -> ctoks <> [] -> nosel ctoks ->
  Forall (fun j => identifier (join_table j) = true /\ column_ok d (join_col1 j) /\ column_ok d (join_col2 j)) js ->
  no_subquery a -> storable (bound_values a) ->
  join_frames E D [] (joins_of js) (base_frames D t) = Some fs ->
  select_frames (fun f' => means E D f' a) fs = Some sel ->
  all_some (map (fun f' => lookup c2 [f']) sel) = Some vs ->
  exists ws c', run_subquery C conn_query c w = Ok (ws, c')
    /\ storable ws /\ forall y, in3 E y ws = in3 E y vs.
Proof.
  intros Rw Et Fa Hc NE Nc Hj Na Sa J S A.
  destruct (sub_parsed t c2 ctoks js a Fa Hc NE Hj) as (x & Rx & Px).
  pose proof (select_as_struth a x fs sel Rx S) as S'.
  destruct (storable_params _ Sa) as (ps & Ep & Fp).
  assert (One : selects s <= 1) by (rewrite (sub_selects ctoks t js a 1 s Et Nc (nosel_joins js Hj) (proj2 Fa) Na); lia).
  assert (Ps : parse_stmt d s = Some (Select (distinct_select c2 t (joins_of js) x))) by (unfold parse_stmt; rewrite Et, Px; reflexivity).
  destruct (AN c s (bound_values a) ps _ One Ps Fp) as (out & rows & c' & So & Fr & Eq).
  { eapply distinct_possible; eauto. apply (distinct_refl E SA). }
  destruct (distinct_results d E D _ c2 t (joins_of js) x vs out fs sel SA J S' A So) as (ws & -> & Hin).
  destruct (firsts _ _ Fr) as (ts & Ef & Fts).
  exists (map turso_value_to_sqlval_untyped ts), c'. split; [|split].
  - unfold run_subquery. rewrite Rw. cbn [obind fst snd]. unfold execute_subquery_and_collect, send. rewrite Ep. cbn [obind]. rewrite Eq. cbn [obind fst snd]. rewrite Ef. reflexivity.
  - apply Forall_forall. intros v Hv. apply in_map_iff in Hv as (u & <- & _). exists u. apply untyped_stored.
  - intros y. rewrite (untyped_alike ws ts Fts). apply Hin.
Qed.
Lemma no_null_bound vs : storable vs -> storable (flat_map bound vs).
Proof.
  induction 1 as [|v vs H _ IH]; [constructor|]. cbn [flat_map]. apply Forall_app. split; [|exact IH].
  destruct v; cbn; repeat constructor; assumption.
Qed.

Lemma transform_AllOf c l : transform c (BAllOf l) = do r <- (fix all (c : C) (l : list BoolExpr) : outcome (list BoolExpr * C) :=
                 match l with
                 | [] => Ok ([], c)
                 | x :: l' => do rx <- transform c x ; do rl <- all (snd rx) l' ;
                              Ok (fst rx :: fst rl, snd rl)
                 end) c l ;
      Ok (BAllOf (fst r), snd r).
Proof. reflexivity. Qed.

Theorem transform_correct e : forall p c f0 t0, bracket_free p e -> supported d e -> no_nested_subquery e ->
  storable (bound_values e) -> means E D f0 e = Some t0 ->
  exists e' c', transform c e = Ok (e', c')
    /\ no_subquery e' /\ bracket_free p e' /\ supported d e' /\ storable (bound_values e')
    /\ forall f, means E D f e' = means E D f e.
Proof.
  induction e as [|c x H|c x H|c x H|c x H|c x H|c x H|c x H|l H|a b Ha Hb|a b Ha Hb|a Ha|c t tc a Ha|c vs|c t c2 js a Ha]
    using filter_ind; intros p c0 f0 t0 B S N V M;
    try (eexists _, c0; split; [reflexivity|]; split; [exact I|]; repeat split; assumption || apply S).
  - rewrite transform_AllOf.
    apply all_forall in S. apply all_forall in N. cbn [bound_values] in V. cbn [means] in M.
    destruct (all_some (map (means E D f0) l)) as [ts|] eqn:Ml; [|discriminate]. clear M.
    assert (X : forall p', Forall (bracket_free p') l -> exists l' c', (fix all (c : C) (l : list BoolExpr) : outcome (list BoolExpr * C) :=
                 match l with
                 | [] => Ok ([], c)
                 | x :: l' => do rx <- transform c x ; do rl <- all (snd rx) l' ;
                              Ok (fst rx :: fst rl, snd rl)
                 end) c0 l = Ok (l', c')
      /\ Forall no_subquery l' /\ Forall (bracket_free p') l' /\ Forall (supported d) l' /\ storable (flat_map bound_values l')
      /\ List.length l' = List.length l /\ forall f, map (means E D f) l' = map (means E D f) l).
    { intros p' Bp. clear B. revert c0 ts Ml. induction l as [|x l IHl]; intros c0 ts Ml.
      - exists [], c0. split; [reflexivity|]. repeat (split; [constructor|]). reflexivity.
      - inversion H as [|? ? Hx Hl]; inversion S as [|? ? Sx Sl]; inversion N as [|? ? Nx Nl]; inversion Bp as [|? ? Bx Bl]; subst.
        cbn [flat_map] in V. apply Forall_app in V as [Vx Vl]. cbn [map all_some] in Ml.
        destruct (means E D f0 x) as [tx|] eqn:Mx; [|discriminate]. destruct (all_some (map (means E D f0) l)) as [tl|] eqn:Mt; [|discriminate].
        destruct (Hx p' c0 f0 tx Bx Sx Nx Vx Mx) as (x' & c1 & Ex & X1 & X2 & X3 & X4 & X5).
        destruct (IHl Hl Sl Nl Vl Bl c1 tl eq_refl) as (l' & c2 & El & Y1 & Y2 & Y3 & Y4 & Y5 & Y6).
        exists (x' :: l'), c2. rewrite Ex. cbn [obind fst snd]. rewrite El. cbn [obind fst snd]. split; [reflexivity|].
        split; [now constructor|]. split; [now constructor|]. split; [now constructor|]. split; [now apply Forall_app|].
        split; [cbn; congruence|]. intros f. cbn [map]. now rewrite X5, Y6. }
    assert (Y : exists p', Forall (bracket_free p') l /\ forall l', List.length l' = List.length l -> Forall (bracket_free p') l' -> bracket_free p (BAllOf l')).
    { destruct l as [|x [|y l]]; [destruct B| |].
      - exists p. split; [constructor; [exact B|constructor]|]. intros [|x' [|y' l']] Hl F; try discriminate Hl. now inversion F.
      - exists BesideAnd. destruct B as [Bp B]. split; [apply all_forall; exact B|].
        intros [|x' [|y' l']] Hl F; try discriminate Hl. split; [exact Bp|]. apply all_forall. exact F. }
    destruct Y as (p' & Bl & Y). destruct (X p' Bl) as (l' & c' & El & X1 & X2 & X3 & X4 & X5 & X6).
    exists (BAllOf l'), c'. rewrite El. cbn [obind fst snd]. split; [reflexivity|]. split; [now apply all_forall|]. split; [now apply Y|].
    split; [now apply all_forall|]. split; [exact X4|]. intros f. cbn [means]. now rewrite X6.
  - destruct S as [Sa Sb], N as [Na Nb]. cbn [means] in M. cbn [bound_values] in V. apply Forall_app in V as [Va Vb].
    destruct B as (Bp & Ba & Bb). destruct (means E D f0 a) as [ta|] eqn:Ma; [|discriminate]. cbn [obind2] in M.
    destruct (means E D f0 b) as [tb|] eqn:Mb; [|discriminate].
    destruct (Ha _ c0 f0 ta Ba Sa Na Va Ma) as (a' & c1 & Ea & X1 & X2 & X3 & X4 & X5).
    destruct (Hb _ c1 f0 tb Bb Sb Nb Vb Mb) as (b' & c2 & Eb & Y1 & Y2 & Y3 & Y4 & Y5).
    exists (BAnd a' b'), c2. cbn [transform_subqueries]. rewrite Ea. cbn [obind fst snd]. rewrite Eb. cbn [obind fst snd].
    split; [reflexivity|]. split; [now split|]. split; [now repeat split|]. split; [now split|]. split; [now apply Forall_app|].
    intros f. cbn [means]. now rewrite X5, Y5.
  - destruct S as [Sa Sb], N as [Na Nb]. cbn [means] in M. cbn [bound_values] in V. apply Forall_app in V as [Va Vb].
    destruct B as (Bp & Ba & Bb). destruct (means E D f0 a) as [ta|] eqn:Ma; [|discriminate]. cbn [obind2] in M.
    destruct (means E D f0 b) as [tb|] eqn:Mb; [|discriminate].
    destruct (Ha _ c0 f0 ta Ba Sa Na Va Ma) as (a' & c1 & Ea & X1 & X2 & X3 & X4 & X5).
    destruct (Hb _ c1 f0 tb Bb Sb Nb Vb Mb) as (b' & c2 & Eb & Y1 & Y2 & Y3 & Y4 & Y5).
    exists (BOr a' b'), c2. cbn [transform_subqueries]. rewrite Ea. cbn [obind fst snd]. rewrite Eb. cbn [obind fst snd].
    split; [reflexivity|]. split; [now split|]. split; [now repeat split|]. split; [now split|]. split; [now apply Forall_app|].
    intros f. cbn [means]. now rewrite X5, Y5.
  - cbn [means] in M. destruct (means E D f0 a) as [ta|] eqn:Ma; [|discriminate].
    destruct (Ha BehindNot c0 f0 ta B S N V Ma) as (a' & c1 & Ea & X1 & X2 & X3 & X4 & X5).
    exists (BNot a'), c1. cbn [transform_subqueries]. rewrite Ea. repeat split; try assumption.
    intros f. cbn [means]. now rewrite X5.
  - destruct S as (Sc & St & Stc & Sa). cbn [bracket_free no_nested_subquery bound_values] in B, N, V.
    cbn [means] in M. unfold obind2 in M. destruct (lookup (None, c) [f0]) as [y|] eqn:Ey; [|discriminate].
    destruct (select_frames (fun f' => means E D f' a) (base_frames D t)) as [sel|] eqn:Es; [|discriminate].
    destruct (all_some (map (fun f' => lookup (None, tc) [f']) sel)) as [vs|] eqn:Ev; [|discriminate].
    destruct (simple_tokens t tc a St Stc B Sa) as (s & Er & Et).
    destruct (run_subquery_correct c0 _ s [qtok kw tc] (None, tc) t [] a (base_frames D t) sel vs Er Et) as (ws & c1 & Ew & Sw & Hin);
      try assumption; [now split| |discriminate|apply nosel_q|constructor|reflexivity|].
    { intros r Hr. apply (p_colref_name d); [apply (p_name_q d kw KW)|exact Hr]. }
    exists (BIn c ws), c1. cbn [transform_subqueries]. rewrite Ew. cbn [obind fst snd]. split; [reflexivity|]. split; [exact I|]. split; [exact I|].
    split; [split; [assumption|intros _; exact EI]|]. split; [now apply no_null_bound|].
    intros f. cbn [means]. rewrite Es. cbn [obind2]. rewrite Ev. cbn [obind2]. destruct (lookup (None, c) [f]); [cbn [obind2]; now rewrite Hin|reflexivity].
  - destruct S as (Sc & St & Sc2 & Sl & Sj & Sa). cbn [bracket_free no_nested_subquery bound_values] in B, N, V.
    cbn [means] in M. unfold obind2 in M. destruct (lookup (None, c) [f0]) as [y|] eqn:Ey; [|discriminate].
    destruct (join_frames E D [] (joins_of js) (base_frames D t)) as [fs|] eqn:Ef; [|discriminate].
    destruct (select_frames (fun f' => means E D f' a) fs) as [sel|] eqn:Es; [|discriminate].
    destruct (all_some (map (fun f' => lookup (colref_of c2) [f']) sel)) as [vs|] eqn:Ev; [|discriminate].
    destruct (join_tokens t c2 js a St Sc2 Sl Sj B Sa) as (s & Er & Et).
    destruct (run_subquery_correct c0 _ s (kcol kw c2) (colref_of c2) t js a fs sel vs Er Et) as (ws & c1 & Ew & Sw & Hin);
      try assumption; [now split| | |now apply nosel_kcol|].
    { intros r Hr. now apply (p_colref_col d kw KW). }
    { unfold kcol. destruct (col_table c2); discriminate. }
    exists (BIn c ws), c1. cbn [transform_subqueries]. rewrite Ew. cbn [obind fst snd]. split; [reflexivity|]. split; [exact I|]. split; [exact I|].
    split; [split; [assumption|intros _; exact EI]|]. split; [now apply no_null_bound|].
    intros f. cbn [means]. rewrite Ef. cbn [obind2]. rewrite Es. cbn [obind2]. rewrite Ev. cbn [obind2]. destruct (lookup (None, c) [f]); [cbn [obind2]; now rewrite Hin|reflexivity].
Qed.

Lemma nosel_commas l : Forall (fun ts => nosel ts) l -> nosel (commas l).
Proof.
  induction 1 as [|a [|b l] Ha Hl IH]; [reflexivity|exact Ha|]. rewrite commas_cons. apply nosel_app; [exact Ha|].
  apply (nosel_app [TComma] _); [reflexivity|exact IH].
Qed.
Lemma nosel_order os : nosel (order_toks kw os).
Proof.
  destruct os as [|o os]; [reflexivity|]. unfold order_toks. apply (nosel_app [TWord "ORDER"; TWord "BY"] _); [reflexivity|].
  apply nosel_commas. apply Forall_forall. intros ts H. apply in_map_iff in H as (u & <- & _). unfold order_tok.
  apply (nosel_app [_] _); [apply nosel_q|]. now destruct (ord_desc u).
Qed.
Lemma nosel_int w n : is_kw "SELECT" (TWord w) = false -> nosel (int_toks w n).
Proof.
  intros H. destruct n as [n|]; [|reflexivity]. unfold int_toks. cbn [filter]. rewrite H. unfold znum. destruct (Z.to_int n); reflexivity.
Qed.
Lemma fetch_selects cols x lim : query_names_ok d x cols -> (forall e, q_filter x = Some e -> no_subquery e) ->
  exists s, fetch_text kw unit q_next tt true cols x lim = Ok (s, query_values x) /\ selects s = 1.
Proof.
  intros Q N. destruct (query_tokens d kw Sqlite cols x lim Q I) as (s & Es & Et & _). exists s. split; [exact Es|].
  unfold selects. rewrite Et.
  match goal with |- List.length (filter _ (TWord "SELECT" :: ?l)) = 1 =>
    change (S (List.length (filter (is_kw "SELECT") l)) = 1); replace (filter (is_kw "SELECT") l) with (@nil tok); [reflexivity|] end.
  symmetry. destruct Q as (_ & _ & _ & _ & F).
  apply nosel_app; [apply nosel_commas, Forall_forall; intros ts H; apply in_map_iff in H as (u & <- & _); apply nosel_q|].
  apply (nosel_app [TWord "FROM"] _); [reflexivity|]. apply (nosel_app [_] _); [apply nosel_q|].
  apply nosel_app.
  - destruct (q_filter x) as [e|]; [|reflexivity]. unfold where_ktoks. apply (nosel_app [TWord "WHERE"] _); [reflexivity|].
    apply nosel_toks; [apply F|now apply N].
  - apply nosel_app; [apply nosel_order|]. apply nosel_app; apply nosel_int; reflexivity.
Qed.

Lemma returns_same x e e' lim cols out : q_filter x = Some e -> (forall f, means E D f e' = means E D f e) ->
  returns E D (with_filter x (Some e')) lim cols out <-> returns E D x lim cols out.
Proof.
  intros F M. unfold returns. cbn [with_filter q_table q_filter q_sort q_offset]. rewrite F.
  rewrite (filter_ext (row_matches E D (q_table x) (Some e')) (row_matches E D (q_table x) (Some e))); [reflexivity|].
  intros r. unfold row_matches. now rewrite M.
Qed.

Theorem turso_query_correct c cols x lim out0 : query_names_ok d x cols -> nonneg lim -> nonneg (q_offset x) ->
  (forall e, q_filter x = Some e -> no_nested_subquery e /\ exists f t, means E D f e = Some t) ->
  storable (query_values x) -> filter_ok E D (q_table x) (q_filter x) -> fits Sqlite x lim D ->
  returns E D x lim cols out0 ->
  exists out rows c', turso_query kw C conn_query c cols x lim = Ok (rows, c')
    /\ returns E D x lim cols out /\ Forall2 (Forall2 stored) out rows.
Proof.
  intros Q L O N V F Fi R.
  assert (X : exists fe c', match q_filter x with
           | Some e => do r <- transform c e ; Ok (Some (fst r), snd r)
           | None => Ok (None, c)
           end = Ok (fe, c')
     /\ query_names_ok d (with_filter x fe) cols
     /\ (forall e, fe = Some e -> no_subquery e)
     /\ storable (query_values (with_filter x fe)) /\ filter_ok E D (q_table x) fe
     /\ forall out, returns E D (with_filter x fe) lim cols out <-> returns E D x lim cols out).
  { destruct Q as (Ht & NE & Fc & Fo & Hf). unfold query_values in V. destruct (q_filter x) as [e|] eqn:Fe.
    - destruct (N e eq_refl) as (Ne & f0 & t0 & M). destruct Hf as [B S].
      destruct (transform_correct e Anywhere c f0 t0 B S Ne V M) as (e' & c' & Ee & X1 & X2 & X3 & X4 & X5).
      exists (Some e'), c'. rewrite Ee. split; [reflexivity|]. split; [repeat split; assumption|]. split; [now intros ? [= <-]|].
      split; [exact X4|]. split; [intros r Hr; destruct (F r Hr) as (v & Hv); exists v; now rewrite X5|]. intros out. now apply returns_same with (e := e).
    - exists None, c. split; [reflexivity|]. split; [repeat split; assumption|]. split; [discriminate|]. split; [constructor|]. split; [exact I|].
      intros out. unfold returns. cbn [with_filter q_table q_filter q_sort q_offset]. now rewrite Fe. }
  destruct X as (fe & c' & Ef & Q' & N' & V' & F' & R').
  destruct (fetch_correct d kw KW Sqlite cols (with_filter x fe) lim Q' I I L O) as (s & sel & Es & Ps & Sem).
  destruct (fetch_selects cols (with_filter x fe) lim Q' N') as (s' & Es' & One). assert (s' = s) by congruence. subst s'.
  destruct (storable_params _ V') as (ps & Ep & Fp).
  destruct (AN c' s _ ps sel ltac:(lia) Ps Fp) as (out & rows & c2 & So & Fr & Eq).
  { exists out0. apply Sem; [exact EK|exact F'|exact Fi|]. now apply R'. }
  exists out, rows, c2. split; [|split; [|exact Fr]].
  - unfold turso_query. rewrite Ef. cbn [obind fst snd]. rewrite Es. cbn [obind fst snd]. unfold send. rewrite Ep. cbn [obind]. now rewrite Eq.
  - apply R'. apply (Sem E D EK F' Fi). exact So.
Qed.
End Run.

(** * The statements sent *)

Section Sent.
Variable answer : string -> list tvalue -> outcome (list (list tvalue)).
Hypothesis EI : d_empty_in d = true.
Notation transform := (transform_subqueries kw (list string) (remember answer)).
Definition sends (log log' : list string) : Prop := exists new, log' = log ++ new /\ Forall (fun s => selects s = 1) new.
Lemma sends_refl log : sends log log.
Proof. exists []. split; [symmetry; apply app_nil_r|constructor]. Qed.
Lemma sends_trans a b c : sends a b -> sends b c -> sends a c.
Proof.
  intros (n & -> & F) (m & -> & G). exists (n ++ m). split; [now rewrite app_assoc|now apply Forall_app].
Qed.
Lemma send_logged log s vs r log' : send (list string) (remember answer) log s vs = Ok (r, log') -> log' = log ++ [s].
Proof.
  unfold send, remember. destruct (collect_all sqlval_to_turso vs) as [ps| |]; cbn [obind]; try discriminate.
  destruct (answer s ps); try discriminate. now intros [= _ <-].
Qed.
Lemma run_logged log w s vs r log' : run unit tt w = Ok (s, vs) ->
  run_subquery (list string) (remember answer) log w = Ok (r, log') -> log' = log ++ [s].
Proof.
  intros Ew. unfold run_subquery. rewrite Ew. cbn [obind fst snd]. unfold execute_subquery_and_collect.
  destruct (send _ _ log s vs) as [[rows l]| |] eqn:Es; cbn [obind]; try discriminate.
  destruct (collect_all first_value _) as [ts| |]; cbn [obind]; try discriminate. intros [= _ <-]. now apply send_logged in Es.
Qed.

Theorem transform_sends e : forall p log e' log', bracket_free p e -> supported d e -> no_nested_subquery e ->
  transform log e = Ok (e', log') -> no_subquery e' /\ bracket_free p e' /\ supported d e' /\ sends log log'.
Proof.
  induction e as [|c x H|c x H|c x H|c x H|c x H|c x H|c x H|l H|a b Ha Hb|a b Ha Hb|a Ha|c t tc a Ha|c vs|c t c2 js a Ha]
    using filter_ind; intros p log e' log' B S N T;
    try (injection T as <- <-; split; [exact I|]; split; [exact B|]; split; [exact S|]; apply sends_refl).
  - rewrite transform_AllOf in T.
    set (all := fix all (c : list string) (l : list BoolExpr) : outcome (list BoolExpr * list string) :=
                 match l with
                 | [] => Ok ([], c)
                 | x :: l' => do rx <- transform c x ; do rl <- all (snd rx) l' ;
                              Ok (fst rx :: fst rl, snd rl)
                 end) in T.
    destruct (all log l) as [[l' log1]| |] eqn:El; cbn [obind fst snd] in T; try discriminate. injection T as <- <-.
    apply all_forall in S. apply all_forall in N.
    assert (X : forall p', Forall (bracket_free p') l ->
      Forall no_subquery l' /\ Forall (bracket_free p') l' /\ Forall (supported d) l' /\ List.length l' = List.length l /\ sends log log1).
    { intros p' Bp. clear B. revert log l' log1 El. induction l as [|x l IHl]; intros log l' log1 El.
      - injection El as <- <-. repeat (split; [constructor|]). apply sends_refl.
      - inversion H as [|? ? Hx Hl]; inversion S as [|? ? Sx Sl]; inversion N as [|? ? Nx Nl]; inversion Bp as [|? ? Bx Bl]; subst.
        cbn [all] in El. destruct (transform log x) as [[x' lg]| |] eqn:Ex; cbn [obind fst snd] in El; try discriminate. fold all in El.
        destruct (all lg l) as [[l2 lg2]| |] eqn:El2; cbn [obind fst snd] in El; try discriminate. injection El as <- <-.
        destruct (Hx p' log x' lg Bx Sx Nx Ex) as (X1 & X2 & X3 & X4).
        destruct (IHl Hl Sl Nl Bl lg l2 lg2 El2) as (Y1 & Y2 & Y3 & Y4 & Y5).
        repeat split; try (now constructor); [cbn; congruence|]. eapply sends_trans; eassumption. }
    assert (Y : exists p', Forall (bracket_free p') l /\ forall l', List.length l' = List.length l -> Forall (bracket_free p') l' -> bracket_free p (BAllOf l')).
    { destruct l as [|x [|y l]]; [destruct B| |].
      - exists p. split; [constructor; [exact B|constructor]|]. intros [|x' [|y' l2]] Hl F; try discriminate Hl. now inversion F.
      - exists BesideAnd. destruct B as [Bp B]. split; [apply all_forall; exact B|].
        intros [|x' [|y' l2]] Hl F; try discriminate Hl. split; [exact Bp|]. apply all_forall. exact F. }
    destruct Y as (p' & Bl & Y). destruct (X p' Bl) as (X1 & X2 & X3 & X4 & X5).
    split; [now apply all_forall|]. split; [now apply Y|]. split; [now apply all_forall|exact X5].
  - destruct S as [Sa Sb], N as [Na Nb], B as (Bp & Ba & Bb). cbn [transform_subqueries] in T.
    destruct (transform log a) as [[a' l1]| |] eqn:Ea; cbn [obind fst snd] in T; try discriminate.
    destruct (transform l1 b) as [[b' l2]| |] eqn:Eb; cbn [obind fst snd] in T; try discriminate. injection T as <- <-.
    destruct (Ha _ _ _ _ Ba Sa Na Ea) as (X1 & X2 & X3 & X4). destruct (Hb _ _ _ _ Bb Sb Nb Eb) as (Y1 & Y2 & Y3 & Y4).
    split; [now split|]. split; [now repeat split|]. split; [now split|]. eapply sends_trans; eassumption.
  - destruct S as [Sa Sb], N as [Na Nb], B as (Bp & Ba & Bb). cbn [transform_subqueries] in T.
    destruct (transform log a) as [[a' l1]| |] eqn:Ea; cbn [obind fst snd] in T; try discriminate.
    destruct (transform l1 b) as [[b' l2]| |] eqn:Eb; cbn [obind fst snd] in T; try discriminate. injection T as <- <-.
    destruct (Ha _ _ _ _ Ba Sa Na Ea) as (X1 & X2 & X3 & X4). destruct (Hb _ _ _ _ Bb Sb Nb Eb) as (Y1 & Y2 & Y3 & Y4).
    split; [now split|]. split; [now repeat split|]. split; [now split|]. eapply sends_trans; eassumption.
  - cbn [transform_subqueries] in T. destruct (transform log a) as [[a' l1]| |] eqn:Ea; cbn [obind fst snd] in T; try discriminate.
    injection T as <- <-. exact (Ha BehindNot _ _ _ B S N Ea).
  - destruct S as (Sc & St & Stc & Sa). cbn [transform_subqueries] in T.
    destruct (simple_tokens t tc a St Stc B Sa) as (s & Er & Et).
    destruct (run_subquery _ _ log _) as [[ws l1]| |] eqn:Ew; cbn [obind fst snd] in T; try discriminate. injection T as <- <-.
    apply (run_logged _ _ _ _ _ _ Er) in Ew as ->. split; [exact I|]. split; [exact I|]. split; [split; [exact Sc|intros _; exact EI]|].
    exists [s]. split; [reflexivity|]. constructor; [|constructor]. eapply sub_selects; [exact Et|apply nosel_q|reflexivity|exact Sa|exact N].
  - destruct S as (Sc & St & Sc2 & Sl & Sj & Sa). cbn [transform_subqueries] in T.
    destruct (join_tokens t c2 js a St Sc2 Sl Sj B Sa) as (s & Er & Et).
    destruct (run_subquery _ _ log _) as [[ws l1]| |] eqn:Ew; cbn [obind fst snd] in T; try discriminate. injection T as <- <-.
    apply (run_logged _ _ _ _ _ _ Er) in Ew as ->. split; [exact I|]. split; [exact I|]. split; [split; [exact Sc|intros _; exact EI]|].
    exists [s]. split; [reflexivity|]. constructor; [|constructor]. eapply sub_selects; [exact Et|now apply nosel_kcol|now apply nosel_joins|exact Sa|exact N].
Qed.

Theorem turso_query_sends cols x lim rows log : query_names_ok d x cols ->
  (forall e, q_filter x = Some e -> no_nested_subquery e) ->
  turso_query kw (list string) (remember answer) [] cols x lim = Ok (rows, log) ->
  log <> [] /\ Forall (fun s => selects s = 1) log.
Proof.
  intros Q N T. unfold turso_query in T.
  destruct (match q_filter x with
           | Some e => do r <- transform [] e ; Ok (Some (fst r), snd r)
           | None => Ok (None, [])
           end) as [[fe lg]| |] eqn:Ef; cbn [obind fst snd] in T; try discriminate.
  assert (X : sends [] lg /\ query_names_ok d (with_filter x fe) cols /\ forall e, fe = Some e -> no_subquery e).
  { destruct Q as (Ht & NE & Fc & Fo & Hf). destruct (q_filter x) as [e|] eqn:Fe.
    - destruct (transform [] e) as [[e' l1]| |] eqn:Et; cbn [obind fst snd] in Ef; try discriminate. injection Ef as <- <-.
      destruct (transform_sends e Anywhere [] e' l1 (proj1 Hf) (proj2 Hf) (N e eq_refl) Et) as (X1 & X2 & X3 & X4).
      split; [exact X4|]. split; [repeat split; assumption|now intros ? [= <-]].
    - injection Ef as <- <-. split; [apply sends_refl|]. split; [repeat split; assumption|discriminate]. }
  destruct X as ((new & -> & F) & Q' & N').
  destruct (fetch_selects cols (with_filter x fe) lim Q' N') as (s & Es & One). rewrite Es in T. cbn [obind fst snd] in T.
  apply send_logged in T. subst log. split; [cbn; destruct new; discriminate|]. apply Forall_app. split; [exact F|]. now constructor.
Qed.
End Sent.
End Texts.
