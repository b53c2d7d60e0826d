(** Placeholders of the generated statements, and independence of their text
    from the bound values. *)
From Coq Require Import DecimalString.
From Verif Require Import Base SqlVal Sql SqlStmt Query QuerySpec Stmt StmtSpec
  LexProofs RenderProofs TokProofs ParseProofs StmtProofs StmtParse StmtSem UpsertProofs StmtMain.

(** * Counting placeholders *)

Notation places := (filter is_place).
Notation num k n := (numbered (Z.of_nat k) n).

Lemma numbered_app n : forall k m, numbered k (n + m) = numbered k n ++ numbered (k + Z.of_nat n) m.
Proof.
  induction n as [|n IH]; intros k m; [cbn; f_equal; lia|]. cbn [numbered Nat.add List.app]. f_equal.
  rewrite IH. do 2 f_equal. lia.
Qed.
Lemma num_app k n m : num k (n + m) = num k n ++ num (k + n) m.
Proof. rewrite numbered_app. do 2 f_equal. lia. Qed.

Section Count.
Variable kw : string -> bool.
Notation tk := (toks kw ptok).

Lemma places_q w : places [qtok kw w] = [].
Proof. unfold qtok. now destruct (kw w). Qed.
Lemma is_place_q w : is_place (qtok kw w) = false.
Proof. unfold qtok. now destruct (kw w). Qed.
Lemma places_q_cons w r : places (qtok kw w :: r) = places r.
Proof. unfold qtok. now destruct (kw w). Qed.
Lemma places_znum z : places (znum z) = [].
Proof. unfold znum. now destruct (Z.to_int z). Qed.
Lemma places_val k v : places (kval ptok k v) = num k (vph v).
Proof. unfold vph. destruct v; cbn [kval bound List.length numbered]; try reflexivity; apply places_znum. Qed.
Lemma places_vals vs : forall k, places (kvals ptok k vs) = num k (nvals vs).
Proof.
  induction vs as [|v [|u r] IH]; intros k; [reflexivity| |].
  - cbn [kvals nvals]. rewrite Nat.add_0_r. apply places_val.
  - change (kvals ptok k (v :: u :: r)) with (kval ptok k v ++ TComma :: kvals ptok (k + vph v) (u :: r)).
    change (nvals (v :: u :: r)) with (vph v + nvals (u :: r)).
    rewrite filter_app, places_val, num_app. f_equal. apply IH.
Qed.
Lemma places_col c : places (kcol kw c) = [].
Proof. unfold kcol. destruct (col_table c); [|reflexivity]. cbn [filter is_place]; rewrite ?is_place_q. reflexivity. Qed.
Lemma places_joins js : places (flat_map (kjoin kw) js) = [].
Proof.
  induction js as [|j js IH]; [reflexivity|]. cbn [flat_map]. rewrite filter_app, IH, app_nil_r. unfold kjoin.
  cbn [filter is_place]; rewrite ?is_place_q. rewrite filter_app, places_col. apply places_col.
Qed.
Lemma places_op k x : operand_ok x -> places (kop kw ptok k x) = num k (nphop x).
Proof.
  destruct x as [c|v| |]; cbn [operand_ok kop nphop]; intros H; try contradiction; [apply places_q|apply places_val].
Qed.

Lemma places_cond d e : supported d e -> forall k, places (tk k e) = num k (nph e).
Proof.
  induction e as [|c x H|c x H|c x H|c x H|c x H|c x H|c x H|l H|a b Ha Hb|a b Ha Hb|a Ha|c t tc a Ha|c vs|c t c2 js a Ha]
    using filter_ind; intros S k; cbn [supported] in S.
  - reflexivity.
  - destruct S as [_ S]. pose proof (places_op k x S) as X. destruct x as [|[]| |]; try exact X; reflexivity.
  - destruct S as [_ S]. pose proof (places_op k x S) as X. destruct x as [|[]| |]; try exact X; reflexivity.
  - exact (places_op k x (proj2 S)).
  - exact (places_op k x (proj2 S)).
  - exact (places_op k x (proj2 S)).
  - exact (places_op k x (proj2 S)).
  - exact (places_op k x (proj2 S)).
  - rewrite toks_AllOf. rewrite all_forall in S. cbn [nph]. revert k.
    induction H as [|x l Hx Hl IH]; intros k; [reflexivity|]. inversion S; subst. cbn [toks_all fold_right]. destruct l as [|y l].
    + cbn. rewrite Nat.add_0_r. now apply Hx.
    + rewrite filter_app, Hx by assumption. rewrite num_app. f_equal. now apply IH.
  - cbn [toks nph]. rewrite filter_app, Ha by tauto. rewrite num_app. f_equal. apply Hb. tauto.
  - cbn [toks nph]. rewrite filter_app, Ha by tauto. rewrite num_app. f_equal. apply Hb. tauto.
  - apply (Ha S).
  - cbn [toks nph]. cbn [filter is_place]; rewrite ?is_place_q. cbn [filter is_place]. cbn [filter is_place]; rewrite ?is_place_q. cbn [filter is_place].
    cbn [filter is_place]; rewrite ?is_place_q. cbn [filter is_place]. rewrite filter_app, Ha by tauto. apply app_nil_r.
  - cbn [toks nph]. cbn [filter is_place]; rewrite ?is_place_q. cbn [filter is_place]. rewrite filter_app, places_vals. apply app_nil_r.
  - cbn [toks nph]. cbn [filter is_place]; rewrite ?is_place_q. cbn [filter is_place]. rewrite filter_app, places_col.
    cbn [filter is_place List.app]. cbn [filter is_place]; rewrite ?is_place_q, filter_app, places_joins. cbn [filter is_place List.app].
    rewrite filter_app, Ha by tauto. apply app_nil_r.
Qed.

Lemma places_commas {A} (f : A -> list tok) l : (forall a, places (f a) = []) -> places (commas (map f l)) = [].
Proof.
  intros H. induction l as [|a [|b l] IH]; [reflexivity|apply H|]. cbn [map]. rewrite commas_cons, filter_app, H.
  exact IH.
Qed.
Lemma places_ptoks k n : places (ptoks k n) = num k n.
Proof.
  revert k. unfold ptoks. induction n as [|n IH]; intros k; [reflexivity|].
  cbn [seq map]. rewrite commas_flat. rewrite flat_map_map. cbn [List.app filter is_place ptok numbered]. f_equal.
  replace (Z.of_nat k + 1)%Z with (Z.of_nat (S k)) by lia. rewrite <- IH. destruct n as [|n]; [reflexivity|].
  cbn [seq map]. rewrite commas_flat, flat_map_map. reflexivity.
Qed.
Lemma places_sets cols : forall k, places (commas (map (set_tok kw) (combine cols (seq k (List.length cols))))) = num k (List.length cols).
Proof.
  assert (X : forall l k, places (flat_map (fun cj => TComma :: set_tok kw cj) (combine l (seq k (List.length l)))) = num k (List.length l)).
  { induction l as [|c l IH]; intros k; [reflexivity|]. cbn [List.length seq combine flat_map]. rewrite filter_app, IH.
    cbn [filter is_place set_tok fst snd]. cbn [filter is_place]; rewrite ?is_place_q. cbn [filter is_place ptok List.app numbered].
    do 2 f_equal. lia. }
  destruct cols as [|c l]; intros k; [reflexivity|]. cbn [List.length seq combine map]. rewrite commas_flat, flat_map_map, filter_app, X.
  unfold set_tok. cbn [fst snd filter is_place]; rewrite ?is_place_q. cbn [filter is_place ptok List.app numbered]. replace (Z.of_nat (S k)) with (Z.of_nat k + 1)%Z by lia. reflexivity.
Qed.
End Count.

(** * The statements *)

Section Statements.
Variable d : dialect.
Variable kw : string -> bool.

Definition places_ok (b : backend) (s : string) (n : nat) : Prop :=
  parameters_are s n /\ match b with Pg _ => dollars_are s n | Sqlite => True end.
Lemma lexed_places b s ts n : lexed b s ts -> places ts = num 1 n -> places_ok b s n.
Proof.
  intros [T L] H. split; [unfold parameters_are; now rewrite T|]. destruct b; [exact I|]. unfold dollars_are. now rewrite L.
Qed.

Theorem filter_places b e : no_empty_all e -> supported d e -> room b (List.length (bound_values e)) ->
  exists s, filter_sql b kw e = Ok (s, bound_values e) /\ places_ok b s (List.length (bound_values e)).
Proof.
  intros N S R. rewrite <- (nph_bound d e S) in *. destruct (filter_tokens d kw b e N S R) as (s & Es & Et).
  exists s. split; [assumption|]. eapply lexed_places; [exact Et|]. now apply (places_cond kw d).
Qed.

Lemma places_int w n : places (int_toks w n) = [].
Proof. destruct n; [|reflexivity]. cbn [int_toks filter is_place]. apply places_znum. Qed.
Lemma places_order os : places (order_toks kw os) = [].
Proof.
  destruct os as [|o os]; [reflexivity|]. cbn [order_toks filter is_place]. apply places_commas. intros a. unfold order_tok.
  cbn [filter is_place]; rewrite ?is_place_q. reflexivity.
Qed.

Theorem fetch_places b cols x lim : query_names_ok d x cols -> room b (List.length (query_values x)) ->
  exists s, (match b with
             | Sqlite => fetch_text kw unit q_next tt true cols x lim
             | Pg c => fetch_text kw Z (pg_next c) 1%Z false cols x lim
             end) = Ok (s, query_values x) /\ places_ok b s (List.length (query_values x)).
Proof.
  intros Q R. destruct (query_tokens d kw b cols x lim Q R) as (s & Es & Et). exists s. split; [assumption|].
  eapply lexed_places; [exact Et|]. destruct Q as (_ & _ & _ & _ & Hf).
  cbn [filter is_place]. rewrite filter_app, places_commas by (intros; apply places_q). cbn [List.app filter is_place].
  cbn [filter is_place]; rewrite ?is_place_q, !filter_app, !places_int, places_order, !app_nil_r. unfold query_values.
  destruct (q_filter x) as [e|]; [|reflexivity]. cbn [where_ktoks filter is_place]. rewrite (places_cond kw d) by apply Hf.
  f_equal. apply (nph_bound d), Hf.
Qed.
Theorem delete_places b x : query_names_ok d x [q_table x] -> room b (List.length (query_values x)) ->
  exists s, delete_sql b kw x = Ok (s, query_values x) /\ places_ok b s (List.length (query_values x)).
Proof.
  intros Q R. destruct (delete_tokens d kw b x Q R) as (s & Es & Et). exists s. split; [assumption|].
  eapply lexed_places; [exact Et|]. destruct Q as (_ & _ & _ & _ & Hf).
  cbn [filter is_place]. cbn [filter is_place]; rewrite ?is_place_q. cbn [filter is_place]. rewrite filter_of_values. unfold filter_of.
  destruct (q_filter x) as [e|]; [|reflexivity]. rewrite (places_cond kw d) by apply Hf. f_equal. apply (nph_bound d), Hf.
Qed.

Lemma places_insert t cols k : places (insert_toks kw t cols k) = num k (List.length cols).
Proof.
  unfold insert_toks. cbn [filter is_place]. cbn [filter is_place]; rewrite ?is_place_q. destruct cols as [|c l]; [reflexivity|].
  cbn [filter is_place]. rewrite filter_app, places_commas by (intros; apply places_q). cbn [List.app filter is_place].
  rewrite filter_app, places_ptoks. apply app_nil_r.
Qed.
Theorem insert_places b t cols : identifier t = true -> Forall (fun c => identifier c = true) cols ->
  room b (List.length cols) ->
  exists s, insert_sql b kw t cols = Ok s /\ places_ok b s (List.length cols).
Proof.
  intros Ht Fc R. destruct (insert_tokens kw b t cols Ht Fc R) as (s & Es & Et). exists s. split; [assumption|].
  eapply lexed_places; [exact Et|]. apply places_insert.
Qed.
Theorem insert_returning_places ck t cols pk : identifier t = true -> Forall (fun c => identifier c = true) cols ->
  bare_name d pk -> room (Pg ck) (List.length cols) ->
  exists s, insert_returning_sql (Pg ck) kw t cols pk = Ok s /\ places_ok (Pg ck) s (List.length cols).
Proof.
  intros Ht Fc Hp R. destruct (insert_returning_tokens d kw ck t cols pk Ht Fc Hp R) as (s & Es & Et). exists s. split; [assumption|].
  eapply lexed_places; [exact Et|]. rewrite filter_app, places_insert. apply app_nil_r.
Qed.
Theorem update_places b t pk cols : identifier t = true -> identifier pk = true -> cols <> [] ->
  Forall (fun c => identifier c = true) cols -> room b (S (List.length cols)) ->
  exists s, update_sql b kw t pk cols = Ok s /\ places_ok b s (S (List.length cols)).
Proof.
  intros Ht Hp NE Fc R. destruct (update_tokens kw b t pk cols Ht Hp NE Fc R) as (s & Es & Et). exists s. split; [assumption|].
  eapply lexed_places; [exact Et|]. unfold update_toks. cbn [filter is_place]. cbn [filter is_place]; rewrite ?is_place_q. cbn [filter is_place].
  rewrite filter_app, places_sets. cbn [filter is_place]. cbn [filter is_place]; rewrite ?is_place_q. cbn [filter is_place ptok].
  replace (S (List.length cols)) with (List.length cols + 1) by lia. rewrite num_app. reflexivity.
Qed.
Theorem upsert_places b t pk cols : identifier t = true -> identifier pk = true -> cols <> [] ->
  Forall (fun c => identifier c = true) cols -> places_ok b (upsert_sql b kw t cols pk) (List.length cols).
Proof.
  intros Ht Hp NE Fc. apply (lexed_places b _ (upsert_toks kw ptok t cols pk)).
  - destruct b as [|ck]; cbn [upsert_sql].
    + split; [|exact I]. apply (tokens_upsert kw q_mark (fun _ => TQ) Z.of_nat); try assumption; try reflexivity. apply q_num.
    + assert (ML : forall k s, 1 <= k -> delim s -> lex_from LStart (pg_mark k ++ s) = ptok k :: lex_from LStart s).
      { intros k s H Dl. apply (pg_lex (S k)); [assumption|lia|assumption]. }
      split; [apply (tokens_upsert kw pg_mark ptok (fun _ => 1%Z)); try assumption; reflexivity|].
      now apply lex_upsert.
  - unfold upsert_toks. cbn [filter is_place]. cbn [filter is_place]; rewrite ?is_place_q. cbn [filter is_place].
    rewrite filter_app, places_commas by (intros; apply places_q). cbn [List.app filter is_place].
    rewrite filter_app. fold (ptoks 1 (List.length cols)). rewrite places_ptoks. cbn [filter is_place]. cbn [filter is_place]; rewrite ?is_place_q. cbn [filter is_place].
    unfold action_toks. destruct (Nat.ltb 1 (List.length cols)); [|apply app_nil_r].
    cbn [filter is_place]. rewrite filter_app, places_commas by (intros; apply places_q). cbn [List.app filter is_place].
    rewrite filter_app, places_commas by (intros; cbn; apply places_q). apply app_nil_r.
Qed.
End Statements.

(** * The text does not depend on the bound values *)

Section Blank.
Variable kw : string -> bool.
Variable P : Type.
Variable next : P -> outcome (string * P).
Notation W := (W P).
Definition face (w : W) : string * P := (out P w, pls P w).
Definition alike (f g : W -> outcome W) : Prop :=
  forall w v, face w = face v -> omap face (f w) = omap face (g v).

Lemma alike_seq f g f' g' : alike f f' -> alike g g' -> alike (andthen P f g) (andthen P f' g').
Proof.
  intros F G w v H. specialize (F w v H). unfold andthen. destruct (f w) as [w'| |], (f' v) as [v'| |]; cbn in *; try discriminate; try congruence.
  apply G. unfold face in *. congruence.
Qed.
Lemma alike_wr s : alike (wr P s) (wr P s).
Proof. intros w v [= H1 H2]. unfold wr, face. cbn. now rewrite H1, H2. Qed.
Lemma alike_place : alike (place P next) (place P next).
Proof. intros w v [= H1 H2]. unfold place. rewrite H2. destruct (next (pls P v)) as [[s p]| |]; cbn; [|reflexivity|reflexivity]. unfold face. cbn. now rewrite H1. Qed.
Lemma alike_push u u' : alike (push P u) (push P u').
Proof. intros w v [= H1 H2]. unfold push, face. cbn. now rewrite H1, H2. Qed.
Lemma alike_nop : alike (fun w => Ok w) (fun w => Ok w).
Proof. intros w v H. cbn. now rewrite H. Qed.
Lemma alike_val v : alike (sql_val P next v) (sql_val P next (blank_val v)).
Proof. destruct v; cbn [sql_val blank_val]; try apply alike_wr; apply alike_seq; (apply alike_push || apply alike_place). Qed.
Lemma alike_vals vs : alike (sql_vals P next vs) (sql_vals P next (map blank_val vs)).
Proof.
  induction vs as [|v [|u r] IH]; [apply alike_nop|apply alike_val|].
  change (alike (andthen P (andthen P (sql_val P next v) (wr P ", ")) (sql_vals P next (u :: r)))
    (andthen P (andthen P (sql_val P next (blank_val v)) (wr P ", ")) (sql_vals P next (map blank_val (u :: r))))).
  apply alike_seq; [apply alike_seq; [apply alike_val|apply alike_wr]|exact IH].
Qed.
Lemma alike_col c : alike (sql_column kw P c) (sql_column kw P c).
Proof. unfold sql_column. destruct (col_table c); repeat (apply alike_seq || apply alike_wr). Qed.
Lemma alike_joins js : alike (sql_joins kw P js) (sql_joins kw P js).
Proof.
  induction js as [|j js IH]; [apply alike_nop|]. cbn [sql_joins].
  repeat first [exact IH|apply alike_col|apply alike_wr|apply alike_seq].
Qed.
Definition blank_op (x : Expr) : Expr := match x with EVal v => EVal (blank_val v) | ECond c => ECond (blank c) | _ => x end.
Lemma alike_op x : Qe (fun e => alike (sql_for_cond kw P next e) (sql_for_cond kw P next (blank e))) x ->
  alike (sql_for_expr kw P next x) (sql_for_expr kw P next (blank_op x)).
Proof. destruct x; intros H; [apply alike_wr|apply alike_val|apply alike_place|exact H]. Qed.
Lemma alike_cmp c o x : Qe (fun e => alike (sql_for_cond kw P next e) (sql_for_cond kw P next (blank e))) x ->
  alike (andthen P (andthen P (wr P c) (wr P o)) (sql_for_expr kw P next x))
        (andthen P (andthen P (wr P c) (wr P o)) (sql_for_expr kw P next (blank_op x))).
Proof. intros H. apply alike_seq; [apply alike_seq; apply alike_wr|now apply alike_op]. Qed.

Lemma alike_cond e : alike (sql_for_cond kw P next e) (sql_for_cond kw P next (blank e)).
Proof.
  induction e as [|c x H|c x H|c x H|c x H|c x H|c x H|c x H|l H|a b Ha Hb|a b Ha Hb|a Ha|c t tc a Ha|c vs|c t c2 js a Ha]
    using filter_ind.
  - apply alike_wr.
  - pose proof (alike_cmp c " = " x H) as X. destruct x as [|[]| |]; try exact X. apply alike_seq; apply alike_wr.
  - pose proof (alike_cmp c " <> " x H) as X. destruct x as [|[]| |]; try exact X. apply alike_seq; apply alike_wr.
  - exact (alike_cmp c " < " x H).
  - exact (alike_cmp c " > " x H).
  - exact (alike_cmp c " <= " x H).
  - exact (alike_cmp c " >= " x H).
  - exact (alike_cmp c " like " x H).
  - cbn [blank]. rewrite !sql_AllOf. induction H as [|x l Hx Hl IH]; [apply alike_nop|]. cbn [map sql_all].
    destruct l as [|y l]; [exact Hx|]. cbn [map] in *. apply alike_seq; [apply alike_seq; [exact Hx|apply alike_wr]|exact IH].
  - cbn [blank sql_for_cond]. repeat first [exact Ha|exact Hb|apply alike_wr|apply alike_seq].
  - cbn [blank sql_for_cond]. repeat first [exact Ha|exact Hb|apply alike_wr|apply alike_seq].
  - cbn [blank sql_for_cond]. repeat first [exact Ha|apply alike_wr|apply alike_seq].
  - cbn [blank sql_for_cond]. repeat first [exact Ha|apply alike_wr|apply alike_seq].
  - cbn [blank sql_for_cond]. repeat first [apply alike_vals|apply alike_wr|apply alike_seq].
  - cbn [blank sql_for_cond]. repeat first [exact Ha|apply alike_col|apply alike_joins|apply alike_wr|apply alike_seq].
Qed.

Lemma alike_run f g p : alike f g -> omap fst (run P p f) = omap fst (run P p g).
Proof.
  intros H. specialize (H {| out := ""; values := []; pls := p |} _ eq_refl). unfold run.
  destruct (f _) as [w| |], (g _) as [v| |]; cbn in *; unfold face in *; congruence.
Qed.

Lemma alike_order os : forall sep, alike (order_terms kw P sep os) (order_terms kw P sep os).
Proof.
  induction os as [|o os IH]; intros sep; [apply alike_nop|]. cbn [order_terms].
  repeat first [apply IH|apply alike_wr|apply alike_seq].
Qed.
Lemma alike_query ml t cols e lim off os :
  alike (query_text kw P next ml t cols e lim off os) (query_text kw P next ml t cols (option_map blank e) lim off os).
Proof.
  unfold query_text, sql_select, list_columns, sql_order, sql_limit, sql_offset, sql_where. 
  destruct e, lim, off, os, ml; cbn [opt option_map];
    repeat first [apply alike_nop|apply alike_cond|apply alike_order|apply alike_wr|apply alike_seq].
Qed.
Lemma alike_delete t e : alike (delete_text kw P next t e) (delete_text kw P next t (blank e)).
Proof. unfold delete_text, sql_where. repeat first [apply alike_nop|apply alike_cond|apply alike_wr|apply alike_seq]. Qed.
End Blank.

Theorem filter_blank kw b e : omap fst (filter_sql b kw e) = omap fst (filter_sql b kw (blank e)).
Proof. destruct b; cbn [filter_sql]; rewrite !where_run; apply alike_run, alike_cond. Qed.
Theorem load_blank kw b cols x : omap fst (load_sql b kw cols x) = omap fst (load_sql b kw cols (blank_query x)).
Proof. destruct b; apply alike_run, alike_query. Qed.
Theorem load_first_blank kw b cols x : omap fst (load_first_sql b kw cols x) = omap fst (load_first_sql b kw cols (blank_query x)).
Proof. destruct b; apply alike_run, alike_query. Qed.
Theorem delete_blank kw b x : omap fst (delete_sql b kw x) = omap fst (delete_sql b kw (blank_query x)).
Proof.
  assert (H : (match q_filter (blank_query x) with Some e => e | None => BTrue end)
              = blank (match q_filter x with Some e => e | None => BTrue end)) by (cbn; now destruct (q_filter x)).
  destruct b; unfold delete_sql, delete_query_text; rewrite H; apply alike_run, alike_delete.
Qed.
