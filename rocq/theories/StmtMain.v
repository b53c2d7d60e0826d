(** The statements of both backends: generated, parsed, executed. *)
From Coq Require Import Permutation DecimalString.
From Verif Require Import Base SqlVal Sql SqlStmt Query QuerySpec Stmt StmtSpec
  LexProofs RenderProofs TokProofs ParseProofs StmtProofs StmtParse StmtSem UpsertProofs.

(** * The two placeholder sources *)

Definition q_at (_ : unit) (_ : nat) : Prop := True.
Lemma q_next_ok limit : forall p k, q_at p k -> k < limit -> exists p', q_next p = Ok ((fun _ => "?"%string) k, p') /\ q_at p' (S k).
Proof. intros p k _ _. exists p. split; [reflexivity|exact I]. Qed.
Lemma q_lex (limit : nat) : forall k s, 1 <= k -> k < limit -> delim s ->
  lex_from LStart ((fun _ : nat => "?"%string) k ++ s) = (fun _ : nat => TQ) k :: lex_from LStart s.
Proof. reflexivity. Qed.
Lemma q_num : forall k r, number_params (Z.of_nat k) ((fun _ : nat => TQ) k :: r) = ptok k :: number_params (Z.of_nat (k + 1)) r.
Proof. intros k r. cbn [number_params]. unfold ptok. do 2 f_equal. lia. Qed.

Definition pg_limit (checked : bool) : nat := if checked then 127 else 128.
Definition pg_at (checked : bool) (n : Z) (k : nat) : Prop :=
  (k <= 127 /\ n = Z.of_nat k) \/ (checked = false /\ k = 128 /\ n = (-128)%Z).
Lemma pg_next_ok c : forall p k, pg_at c p k -> k < pg_limit c ->
  exists p', pg_next c p = Ok (pg_mark k, p') /\ pg_at c p' (S k).
Proof.
  intros p k A L. unfold pg_next, pg_limit in *. destruct A as [[Hk ->]|(-> & -> & ->)]; [|lia].
  destruct (Z.eqb_spec (Z.of_nat k) 127) as [E|N].
  - destruct c; [lia|]. exists (-128)%Z. split; [reflexivity|]. right. repeat split. lia.
  - exists (Z.of_nat k + 1)%Z. split; [reflexivity|]. left. lia.
Qed.
Lemma pg_lex (limit : nat) : forall k s, 1 <= k -> k < limit -> delim s ->
  lex_from LStart (pg_mark k ++ s) = ptok k :: lex_from LStart s.
Proof. intros k s H _ D. apply lex_dollar; [lia|assumption]. Qed.
Lemma pg_num (i : Z) : forall k r, number_params ((fun _ => i) k) (ptok k :: r) = ptok k :: number_params ((fun _ : nat => i) (k + 1)) r.
Proof. reflexivity. Qed.
Lemma pg_start c : pg_at c 1 1.
Proof. left. lia. Qed.
Lemma pg_room c n : room (Pg c) n -> 1 + n <= pg_limit c.
Proof. unfold room, pg_limit. destruct c; lia. Qed.

(** The text is read as these tokens; PostgreSQL's placeholders are numbered in the text itself. *)
Definition lexed (b : backend) (s : string) (ts : list tok) : Prop :=
  tokens s = ts /\ match b with Pg _ => lex s = ts | Sqlite => True end.

Lemma number_twice ts : forall i j, i <> j -> number_params i ts = number_params j ts -> number_params i ts = ts.
Proof.
  induction ts as [|t ts IH]; intros i j N H; [reflexivity|].
  destruct t; cbn [number_params] in *; try (injection H as H; f_equal; now apply (IH i j)).
  injection H as H _. congruence.
Qed.

Lemma run_q f ts vs n c o :
  says unit q_at (S n) Z.of_nat f ts vs n c o ->
  exists s, run unit tt f = Ok (s, vs) /\ lexed Sqlite s (ts 1).
Proof.
  intros H. destruct (says_run unit q_at (S n) Z.of_nat tt I f ts vs n c o H) as (s & Es & Et); [lia|].
  exists s. split; [assumption|]. split; [exact Et|exact I].
Qed.
Lemma run_pg ck f ts vs n c o :
  (forall i, says Z (pg_at ck) (pg_limit ck) (fun _ => i) f ts vs n c o) -> room (Pg ck) n ->
  exists s, run Z 1%Z f = Ok (s, vs) /\ lexed (Pg ck) s (ts 1).
Proof.
  intros H R. apply pg_room in R.
  destruct (says_run Z (pg_at ck) (pg_limit ck) (fun _ => 1%Z) 1%Z (pg_start ck) f ts vs n c o (H 1%Z) R) as (s & Es & Et).
  destruct (says_run Z (pg_at ck) (pg_limit ck) (fun _ => 2%Z) 1%Z (pg_start ck) f ts vs n c o (H 2%Z) R) as (s2 & Es2 & Et2).
  assert (s2 = s) by congruence. subst s2. exists s. split; [assumption|]. split; [exact Et|].
  rewrite <- Et. symmetry. apply (number_twice _ 1%Z 2%Z); congruence.
Qed.

Section Main.
Variable d : dialect.
Variable kw : string -> bool.
Hypothesis KW : quotes_enough kw d.

Lemma filter_tokens b e : no_empty_all e -> supported d e -> room b (nph e) ->
  exists s, filter_sql b kw e = Ok (s, bound_values e) /\ lexed b s (toks kw ptok 1 e).
Proof.
  intros N Su R. destruct b as [|ck]; cbn [filter_sql]; rewrite where_run.
  - apply (run_q _ (fun k => toks kw ptok k e) _ (nph e) false false). apply (says_cond kw d unit q_next q_at (S _) (fun _ => "?"%string) (fun _ => TQ) Z.of_nat (q_next_ok _) (q_lex _) q_num); assumption.
  - apply (run_pg ck _ (fun k => toks kw ptok k e) _ (nph e) false false); [|exact R]. intros i. apply (says_cond kw d Z (pg_next ck) (pg_at ck) (pg_limit ck) pg_mark ptok (fun _ => i) (pg_next_ok ck) (pg_lex _) (pg_num i)); assumption.
Qed.

Theorem filter_correct b e : bracket_free Anywhere e -> supported d e -> room b (List.length (bound_values e)) ->
  exists s x, filter_sql b kw e = Ok (s, bound_values e) /\ parse_cond d s = Some x
    /\ forall E D f t, engine_ok E -> means E D f e = Some t -> struth E D (bound_values e) [f] x = Some t.
Proof.
  intros B S R. rewrite <- (nph_bound d e S) in R.
  destruct (filter_tokens b e (bracket_free_no_empty e _ B) S R) as (s & Es & Et & _).
  destruct (cond_parsed d kw KW 1 e (conj B S)) as (x & Hx & Hr). exists s, x. split; [assumption|].
  split; [|intros E D f t K M; now apply reads_truth].
  unfold parse_cond. rewrite Et, <- (app_nil_r (toks kw ptok 1 e)), Hx; [reflexivity|]. repeat split.
Qed.

(** * Queries *)

Lemma query_tokens b cols x lim : query_names_ok d x cols -> room b (List.length (query_values x)) ->
  exists s, (match b with
             | Sqlite => fetch_text kw unit q_next tt true cols x lim
             | Pg c => fetch_text kw Z (pg_next c) 1%Z false cols x lim
             end) = Ok (s, query_values x)
    /\ lexed b s (TWord "SELECT" :: commas (map (fun c => [qtok kw c]) cols) ++ TWord "FROM" :: qtok kw (q_table x)
       :: where_ktoks kw 1 (q_filter x) ++ order_toks kw (q_sort x)
          ++ int_toks "LIMIT" (maxed (match b with Sqlite => true | Pg _ => false end) lim (q_offset x))
          ++ int_toks "OFFSET" (q_offset x)).
Proof.
  intros (Ht & NE & Fc & Fo & Hf) R.
  assert (Ev : query_values x = bound_opt (q_filter x)) by reflexivity.
  assert (En : List.length (query_values x) = nph_opt (q_filter x)).
  { rewrite Ev. destruct (q_filter x) as [e|]; [|reflexivity]. cbn. symmetry. apply (nph_bound d), Hf. }
  rewrite En in R. rewrite Ev. unfold fetch_text.
  replace (match q_sort x with [] => None | l => Some l end) with (opt_order (q_sort x)) by (now destruct (q_sort x)).
  destruct b as [|ck].
  - apply (run_q _ (fun k => TWord "SELECT" :: commas (map (fun c => [qtok kw c]) cols) ++ TWord "FROM" :: qtok kw (q_table x)
       :: where_ktoks kw k (q_filter x) ++ order_toks kw (q_sort x)
          ++ int_toks "LIMIT" (maxed true lim (q_offset x))
          ++ int_toks "OFFSET" (q_offset x)) _ (nph_opt (q_filter x)) false false).
    apply (says_query kw d unit q_next q_at (S _) (fun _ => "?"%string) (fun _ => TQ) Z.of_nat (q_next_ok _) (q_lex _) q_num); assumption.
  - apply (run_pg ck _ (fun k => TWord "SELECT" :: commas (map (fun c => [qtok kw c]) cols) ++ TWord "FROM" :: qtok kw (q_table x)
       :: where_ktoks kw k (q_filter x) ++ order_toks kw (q_sort x)
          ++ int_toks "LIMIT" (maxed false lim (q_offset x))
          ++ int_toks "OFFSET" (q_offset x)) _ (nph_opt (q_filter x)) false false); [|assumption].
    intros i. apply (says_query kw d Z (pg_next ck) (pg_at ck) (pg_limit ck) pg_mark ptok (fun _ => i) (pg_next_ok ck) (pg_lex _) (pg_num i)); assumption.
Qed.

Lemma drop_length {A} off (l : list A) : List.length (drop off l) <= List.length l.
Proof. destruct off; cbn; [rewrite skipn_length; lia|lia]. Qed.

Theorem fetch_correct b cols x lim : query_names_ok d x cols -> room b (List.length (query_values x)) ->
  reads_sql b d -> nonneg lim -> nonneg (q_offset x) ->
  exists s sel, (match b with
             | Sqlite => fetch_text kw unit q_next tt true cols x lim
             | Pg c => fetch_text kw Z (pg_next c) 1%Z false cols x lim
             end) = Ok (s, query_values x)
    /\ parse_stmt d s = Some (Select sel)
    /\ forall E D, engine_ok E -> filter_ok E D (q_table x) (q_filter x) -> fits b x lim D ->
       forall out, select_returns d E D (query_values x) sel out <-> returns E D x lim cols out.
Proof.
  intros Q R RS Hl Ho. destruct (query_tokens b cols x lim Q R) as (s & Es & Et & _).
  destruct Q as (Ht & NE & Fc & Fo & Hf).
  set (lim2 := maxed (match b with Sqlite => true | Pg _ => false end) lim (q_offset x)) in *.
  destruct (select_parsed d kw KW cols (q_table x) (q_filter x) (q_sort x) lim2 (q_offset x) NE Hf) as (w & Rw & Pw).
  { intros E1 E2. destruct b as [|c]; [|exact RS]. unfold lim2, maxed in E1.
    destruct lim; [discriminate|]. destruct (q_offset x); [discriminate|congruence]. }
  exists s, (the_select cols (q_table x) w (q_sort x) lim2 (q_offset x)).
  split; [assumption|]. split; [unfold parse_stmt; rewrite Et, Pw; reflexivity|].
  intros E D K F Fi out. apply (select_meaning d E D x cols w lim2 lim); try assumption.
  - unfold lim2, maxed. destruct lim as [l|]; [exact Hl|]. destruct (q_offset x); [|exact I].
    destruct b; cbn; [unfold i32_max; lia|exact I].
  - intros l Hlen. unfold lim2, maxed. destruct lim as [m|]; [reflexivity|]. destruct (q_offset x) as [o|] eqn:Eo; [|reflexivity].
    destruct b as [|c]; [|reflexivity]. cbn [take]. rewrite firstn_all2; [reflexivity|].
    pose proof (drop_length (Some o) l) as X. cbn [drop] in *.
    assert (Y : (Z.of_nat (List.length (D (q_table x))) <= i32_max)%Z).
    { specialize (Fi eq_refl). rewrite Eo in Fi. unfold i32_max. assert (Z.of_nat (List.length (D (q_table x))) < 2 ^ 31)%Z by (apply Fi; congruence). lia. }
    lia.
Qed.

Definition filter_of (x : Query) : BoolExpr := match q_filter x with Some e => e | None => BTrue end.
Lemma filter_of_values x : query_values x = bound_values (filter_of x).
Proof. unfold query_values, filter_of. now destruct (q_filter x). Qed.

Lemma delete_tokens b x : query_names_ok d x [q_table x] -> room b (List.length (query_values x)) ->
  exists s, delete_sql b kw x = Ok (s, query_values x)
    /\ lexed b s (TWord "DELETE" :: TWord "FROM" :: qtok kw (q_table x) :: TWord "WHERE" :: toks kw ptok 1 (filter_of x)).
Proof.
  intros (Ht & _ & _ & _ & Hf) R. rewrite filter_of_values in *.
  set (e := filter_of x) in *.
  assert (Hc : filter_can d (Some e)) by (unfold e, filter_of; destruct (q_filter x); [exact Hf|split; exact I]).
  assert (En : List.length (bound_values e) = nph e) by (symmetry; apply (nph_bound d), Hc).
  rewrite En in R. unfold delete_sql, delete_query_text. fold (filter_of x). fold e. destruct b as [|ck].
  - apply (run_q _ (fun k => TWord "DELETE" :: TWord "FROM" :: qtok kw (q_table x) :: TWord "WHERE" :: toks kw ptok k e) _ (nph e) false false).
    apply (says_delete kw d unit q_next q_at (S _) (fun _ => "?"%string) (fun _ => TQ) Z.of_nat (q_next_ok _) (q_lex _) q_num); assumption.
  - apply (run_pg ck _ (fun k => TWord "DELETE" :: TWord "FROM" :: qtok kw (q_table x) :: TWord "WHERE" :: toks kw ptok k e) _ (nph e) false false); [|assumption].
    intros i. apply (says_delete kw d Z (pg_next ck) (pg_at ck) (pg_limit ck) pg_mark ptok (fun _ => i) (pg_next_ok ck) (pg_lex _) (pg_num i)); assumption.
Qed.

Theorem delete_correct b x : query_names_ok d x [q_table x] -> room b (List.length (query_values x)) ->
  exists s st, delete_sql b kw x = Ok (s, query_values x) /\ parse_stmt d s = Some st
    /\ forall E D fill, engine_ok E -> filter_ok E D (q_table x) (q_filter x) ->
       exec E fill D (query_values x) st
       = Some (with_table D (q_table x) (filter (fun r => negb (row_matches E D (q_table x) (q_filter x) r)) (D (q_table x))), None).
Proof.
  intros Q R. destruct (delete_tokens b x Q R) as (s & Es & Et & _). destruct Q as (Ht & _ & _ & _ & Hf).
  assert (Hc : filter_can d (Some (filter_of x))) by (unfold filter_of; destruct (q_filter x); [exact Hf|split; exact I]).
  destruct (delete_parsed d kw KW (q_table x) (filter_of x) Hc) as (w & Rw & Pw).
  exists s, (Delete (q_table x) w). split; [assumption|]. split; [unfold parse_stmt; rewrite Et, Pw; reflexivity|].
  intros E D fill K F. rewrite filter_of_values.
  assert (Fe : filter_ok E D (q_table x) (Some (filter_of x))).
  { unfold filter_of. destruct (q_filter x); [exact F|]. intros r _. eexists; reflexivity. }
  rewrite (delete_meaning E D fill (q_table x) (filter_of x) w Rw K Fe). do 3 f_equal. apply filter_ext. intros r.
  unfold filter_of. destruct (q_filter x); reflexivity.
Qed.

(** * Changes *)

Lemma omap_fst_run P p f s vs : run P p f = Ok (s, vs) -> omap fst (run P p f) = Ok s.
Proof. intros ->. reflexivity. Qed.

Lemma insert_tokens b t cols : identifier t = true -> Forall (fun c => identifier c = true) cols ->
  room b (List.length cols) ->
  exists s, insert_sql b kw t cols = Ok s /\ lexed b s (insert_toks kw t cols 1).
Proof.
  intros Ht Fc R.
  unfold insert_sql. destruct b as [|ck].
    - destruct (run_q (sql_insert_with_placeholders kw unit q_next t cols) (insert_toks kw t cols) [] (List.length cols) true false) as (s & Es & Et).
      + apply (says_insert kw unit q_next q_at (S _) (fun _ => "?"%string) (fun _ => TQ) Z.of_nat (q_next_ok _) (q_lex _) q_num); assumption.
      + exists s. split; [eapply omap_fst_run; exact Es|assumption].
    - destruct (run_pg ck (sql_insert_with_placeholders kw Z (pg_next ck) t cols) (insert_toks kw t cols) [] (List.length cols) true false) as (s & Es & Et); [|assumption|].
      + intros i. apply (says_insert kw Z (pg_next ck) (pg_at ck) (pg_limit ck) pg_mark ptok (fun _ => i) (pg_next_ok ck) (pg_lex _) (pg_num i)); assumption.
      + exists s. split; [eapply omap_fst_run; exact Es|assumption].
Qed.

Theorem insert_correct b t cols : identifier t = true -> Forall (fun c => identifier c = true) cols ->
  room b (List.length cols) ->
  exists s st, insert_sql b kw t cols = Ok s /\ parse_stmt d s = Some st
    /\ forall E D fill vs, List.length vs = List.length cols ->
       exec E fill D vs st = Some (with_table D t (D t ++ [combine cols vs ++ fill t cols]), None).
Proof.
  intros Ht Fc R.
  destruct (insert_tokens b t cols Ht Fc R) as (s & Es & Et & _).
  pose proof (insert_parsed d kw KW t cols None I) as Pw. cbn [ret_toks] in Pw. rewrite app_nil_r in Pw.
  eexists s, _. split; [assumption|]. split; [unfold parse_stmt; rewrite Et, Pw; reflexivity|].
  intros E D fill vs L. destruct cols as [|c cols].
  - destruct vs; [|discriminate]. reflexivity.
  - rewrite insert_meaning by assumption. reflexivity.
Qed.

Lemma insert_returning_tokens ck t cols pk : identifier t = true -> Forall (fun c => identifier c = true) cols ->
  bare_name d pk -> room (Pg ck) (List.length cols) ->
  exists s, insert_returning_sql (Pg ck) kw t cols pk = Ok s /\ lexed (Pg ck) s (insert_toks kw t cols 1 ++ ret_toks (Some pk)).
Proof.
  intros Ht Fc [Hp Hr] R.
  unfold insert_returning_sql.
    destruct (run_pg ck (pg_insert_text kw Z (pg_next ck) t cols pk) (fun k => insert_toks kw t cols k ++ [TWord "RETURNING"; TWord pk]) [] (List.length cols) false false) as (s & Es & Et); [|assumption|].
      + intros i. apply (says_pg_insert kw Z (pg_next ck) (pg_at ck) (pg_limit ck) pg_mark ptok (fun _ => i) (pg_next_ok ck) (pg_lex _) (pg_num i)); assumption.
      + exists s. split; [eapply omap_fst_run; exact Es|assumption].
Qed.

Theorem insert_returning_correct ck t cols pk : identifier t = true -> Forall (fun c => identifier c = true) cols ->
  bare_name d pk -> room (Pg ck) (List.length cols) ->
  exists s st, insert_returning_sql (Pg ck) kw t cols pk = Ok s /\ parse_stmt d s = Some st
    /\ forall E D fill vs, List.length vs = List.length cols ->
       let new := combine cols vs ++ fill t cols in
       exec E fill D vs st = Some (with_table D t (D t ++ [new]), field pk new).
Proof.
  intros Ht Fc [Hp Hr] R.
  destruct (insert_returning_tokens ck t cols pk Ht Fc (conj Hp Hr) R) as (s & Es & Et & _).
  pose proof (insert_parsed d kw KW t cols (Some pk) Hr) as Pw.
  eexists s, _. split; [assumption|]. split; [unfold parse_stmt; rewrite Et, Pw; reflexivity|].
  intros E D fill vs L new. destruct cols as [|c cols].
  - destruct vs; [|discriminate]. reflexivity.
  - rewrite insert_meaning by assumption. reflexivity.
Qed.

Lemma update_tokens b t pk cols : identifier t = true -> identifier pk = true -> cols <> [] ->
  Forall (fun c => identifier c = true) cols -> room b (S (List.length cols)) ->
  exists s, update_sql b kw t pk cols = Ok s /\ lexed b s (update_toks kw t pk cols 1).
Proof.
  intros Ht Hp NE Fc R.
  unfold update_sql. destruct b as [|ck].
    - destruct (run_q (sql_update_with_placeholders kw unit q_next t pk cols) (update_toks kw t pk cols) [] (S (List.length cols)) false false) as (s & Es & Et).
      + apply (says_update kw unit q_next q_at (S _) (fun _ => "?"%string) (fun _ => TQ) Z.of_nat (q_next_ok _) (q_lex _) q_num); assumption.
      + exists s. split; [eapply omap_fst_run; exact Es|assumption].
    - destruct (run_pg ck (sql_update_with_placeholders kw Z (pg_next ck) t pk cols) (update_toks kw t pk cols) [] (S (List.length cols)) false false) as (s & Es & Et); [|assumption|].
      + intros i. apply (says_update kw Z (pg_next ck) (pg_at ck) (pg_limit ck) pg_mark ptok (fun _ => i) (pg_next_ok ck) (pg_lex _) (pg_num i)); assumption.
      + exists s. split; [eapply omap_fst_run; exact Es|assumption].
Qed.

Theorem update_correct b t pk cols : identifier t = true -> identifier pk = true -> cols <> [] ->
  Forall (fun c => identifier c = true) cols -> room b (S (List.length cols)) ->
  exists s st, update_sql b kw t pk cols = Ok s /\ parse_stmt d s = Some st
    /\ forall E D fill vs kv, engine_ok E -> List.length vs = List.length cols -> Forall (row_has (pk :: cols)) (D t) ->
       exec E fill D (update_values vs kv) st
       = Some (with_table D t (rewrite_rows (has_key E pk kv) (assign (combine cols vs)) (D t)), None).
Proof.
  intros Ht Hp NE Fc R.
  destruct (update_tokens b t pk cols Ht Hp NE Fc R) as (s & Es & Et & _).
  pose proof (update_parsed d kw KW t pk cols NE) as Pw.
  eexists s, _. split; [assumption|]. split; [unfold parse_stmt; rewrite Et, Pw; reflexivity|].
  intros E D fill vs kv K L F. unfold update_values. now apply update_meaning.
Qed.

Theorem upsert_correct b t pk cols : reserved d "excluded" = false ->
  identifier t = true -> identifier pk = true -> cols <> [] -> Forall (fun c => identifier c = true) cols ->
  exists st, parse_stmt d (upsert_sql b kw t cols pk) = Some st
    /\ forall E D fill vs kv, t <> "excluded" -> List.length vs = List.length cols -> NoDup cols -> In pk cols ->
       field pk (combine cols vs) = Some kv -> Forall (row_has cols) (D t) ->
       exec E fill D vs st
       = Some (if existsb (has_key E pk kv) (D t)
               then (if Nat.ltb 1 (List.length cols)
                     then with_table D t (rewrite_rows (has_key E pk kv) (assign (combine cols vs)) (D t)) else D, None)
               else (with_table D t (D t ++ [combine cols vs ++ fill t cols]), None)).
Proof.
  intros EX Ht Hp NE Fc. eexists. split.
  - destruct b as [|ck]; cbn [upsert_sql].
    + apply (upsert_text_ok d kw KW EX q_mark (fun _ => TQ) Z.of_nat); try assumption; try reflexivity. apply q_num.
    + apply (upsert_text_ok d kw KW EX pg_mark ptok (fun _ => 1%Z)); try assumption; try reflexivity.
      intros k s H Dl. apply (pg_lex (S k)); [assumption|lia|assumption].
  - intros. now apply upsert_meaning.
Qed.
End Main.

(** * The builder *)

Definition or_else {A} (x y : option A) : option A := match x with Some a => Some a | None => y end.
Lemma built_from l : forall x, fold_left build1 l x =
  let a := asked (q_table x) l in
  {| q_table := q_table x; q_filter := or_else (q_filter a) (q_filter x); q_limit := or_else (q_limit a) (q_limit x);
     q_offset := or_else (q_offset a) (q_offset x); q_sort := q_sort x ++ q_sort a |}.
Proof.
  induction l as [|b l IH]; intros x; cbn.
  - destruct x; cbn. now rewrite app_nil_r.
  - rewrite IH. cbn. destruct b; cbn;
      repeat match goal with |- context [last_some ?f l] => destruct (last_some f l) end; cbn; rewrite <- ?app_assoc; reflexivity.
Qed.
Theorem built_asked t l : built t l = asked t l.
Proof.
  unfold built. rewrite built_from. unfold asked. cbn.
  f_equal; match goal with |- context [last_some ?f l] => destruct (last_some f l) end; reflexivity.
Qed.
