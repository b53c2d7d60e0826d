(** The tokens of the generated statements parse to the statements meant. *)
From Coq Require Import Permutation DecimalString.
From Verif Require Import Base SqlVal Sql SqlStmt Query QuerySpec Stmt StmtSpec
  LexProofs RenderProofs TokProofs ParseProofs StmtProofs.

Definition no_comma (ts : list tok) : Prop := match ts with TComma :: _ => False | _ => True end.

Lemma p_sep_commas {A} (p : list tok -> option (A * list tok)) (ok : list tok -> Prop)
  (items : list (list tok * A)) :
  items <> [] -> Forall (fun it => forall r, ok r -> p (fst it ++ r) = Some (snd it, r)) items ->
  (forall r, ok (TComma :: r)) ->
  forall fu rest, ok rest -> no_comma rest -> List.length items <= S fu ->
  p_sep p fu (commas (map fst items) ++ rest) = Some (map snd items, rest).
Proof.
  intros NE F OC. induction F as [|a l Ha F IH]; [congruence|]. intros fu rest Ho Hn Hf.
  destruct l as [|b l].
  - cbn [map commas]. destruct fu; cbn [p_sep]; rewrite (Ha rest Ho); destruct rest as [|[] rest]; try reflexivity; contradiction.
  - cbn [map] in *. rewrite commas_cons, <- app_assoc. cbn [List.app].
    destruct fu as [|fu]; [cbn in Hf; lia|]. cbn [p_sep]. rewrite (Ha _ (OC _)).
    rewrite (IH ltac:(congruence) fu rest Ho Hn ltac:(cbn in Hf |- *; lia)). reflexivity.
Qed.

Lemma commas_length l : Forall (fun x => x <> []) l -> List.length l <= List.length (commas l).
Proof.
  induction 1 as [|a l Ha F IH]; [reflexivity|]. destruct l as [|b l].
  - cbn. destruct a; [congruence|cbn; lia].
  - rewrite commas_cons, app_length. cbn [List.length] in *. lia.
Qed.

Section P.
Variable d : dialect.
Variable kw : string -> bool.
Hypothesis KW : quotes_enough kw d.
Notation toks := (toks kw ptok).

Lemma p_int_znum z r : p_int (znum z ++ r) = Some (z, r).
Proof.
  unfold znum. pose proof (of_to_int z) as E. destruct (Z.to_int z) as [u|u]; cbn [List.app p_int];
    rewrite number_of_uint; cbn in *; now rewrite E.
Qed.

Definition expr_rest (r : list tok) : Prop := follow r /\ head_not "AND" r /\ head_not "OR" r.

Lemma cond_parsed k e : filter_can d (Some e) ->
  exists x, (forall r, expr_rest r -> p_expr d (toks k e ++ r) = Some (x, r)) /\ reads k e x.
Proof.
  intros [B S]. pose proof (cond_parses d kw KW e Anywhere k B S) as C. cbn in C.
  destruct (P_or_parse d kw k e C) as (x & Hp & Hr). exists x. split; [|assumption].
  intros r (F & HA & HO). unfold p_expr, fuel_for. apply Hp; [assumption|split; assumption|].
  rewrite app_length. lia.
Qed.

Notation cols_toks cols := (commas (map (fun c => [qtok kw c]) cols)).

Lemma names_sep (cols : list string) fu rest : cols <> [] -> no_comma rest -> List.length cols <= S fu ->
  p_sep (p_name d) fu (cols_toks cols ++ rest) = Some (cols, rest).
Proof.
  intros NE Hn Hf.
  pose proof (p_sep_commas (p_name d) (fun _ => True) (map (fun c => ([qtok kw c], c)) cols)) as X.
  rewrite !map_map in X. cbn [fst snd] in X. rewrite map_id in X. apply X; try (exact I || assumption || auto).
  - destruct cols; [congruence|discriminate].
  - apply Forall_forall. intros it Hi. apply in_map_iff in Hi as (c & <- & _). intros r _. cbn [fst snd List.app].
    now apply p_name_q.
  - now rewrite map_length.
Qed.
Lemma colrefs_sep (cols : list string) fu rest : cols <> [] -> no_comma rest -> no_dot rest -> List.length cols <= S fu ->
  p_sep (p_colref d) fu (cols_toks cols ++ rest) = Some (map (fun c => (None, c)) cols, rest).
Proof.
  intros NE Hn Hd Hf.
  pose proof (p_sep_commas (p_colref d) no_dot (map (fun c => ([qtok kw c], (None, c) : colref)) cols)) as X.
  rewrite !map_map in X. cbn [fst snd] in X. apply X; try assumption.
  - destruct cols; [congruence|discriminate].
  - apply Forall_forall. intros it Hi. apply in_map_iff in Hi as (c & <- & _). intros r Hr. cbn [fst snd List.app].
    eapply p_colref_name; [now apply p_name_q|assumption].
  - intros r. exact I.
  - now rewrite map_length.
Qed.
Lemma qtoks_ne cols : Forall (fun x => x <> []) (map (fun c => [qtok kw c]) cols).
Proof. apply Forall_forall. intros x Hx. apply in_map_iff in Hx as (c & <- & _). discriminate. Qed.
Lemma cols_len cols rest : List.length cols <= S (List.length (cols_toks cols ++ rest)).
Proof. rewrite app_length. pose proof (commas_length _ (qtoks_ne cols)) as H. rewrite map_length in H. lia. Qed.

Lemma paren_names cols rest : cols <> [] -> p_paren (p_name d) (TLP :: cols_toks cols ++ TRP :: rest) = Some (cols, rest).
Proof.
  intros NE. unfold p_paren. rewrite names_sep; [reflexivity|assumption|exact I|apply cols_len].
Qed.

Definition value_rest (r : list tok) : Prop := no_dot r.
Lemma value_param k r : p_value d (ptok k :: r) = Some (SParam (Z.of_nat k), r).
Proof. unfold p_value, fuel_for. cbn [List.length]. rewrite Nat.mul_comm. cbn [Nat.mul Nat.add]. reflexivity. Qed.
Lemma paren_params k n rest : 0 < n ->
  p_paren (p_value d) (TLP :: ptoks k n ++ TRP :: rest) = Some (map (fun j => SParam (Z.of_nat j)) (seq k n), rest).
Proof.
  intros Hn. unfold p_paren, ptoks.
  pose proof (p_sep_commas (p_value d) (fun _ => True) (map (fun j => ([ptok j], SParam (Z.of_nat j))) (seq k n))) as X.
  rewrite !map_map in X. cbn [fst snd] in X. rewrite X; try reflexivity; try exact I; auto.
  - destruct n; [lia|discriminate].
  - apply Forall_forall. intros it Hi. apply in_map_iff in Hi as (c & <- & _). intros r _. apply value_param.
  - rewrite map_length, app_length.
    assert (F : Forall (fun x : list tok => x <> []) (map (fun j => [ptok j]) (seq k n))).
    { apply Forall_forall. intros x Hx. apply in_map_iff in Hx as (c & <- & _). discriminate. }
    apply commas_length in F. rewrite map_length in F. lia.
Qed.

(** ** SELECT *)

Lemma orders_parsed os rest : head_not "ORDER" rest -> no_comma rest ->
  p_orders d (order_toks kw os ++ rest) = Some (map (fun o => (ord_column o, ord_desc o)) os, rest).
Proof.
  intros Hr Hn. unfold p_orders. destruct os as [|o os].
  - cbn [order_toks List.app map]. unfold head_not in Hr. now rewrite Hr.
  - set (l := o :: os). change (order_toks kw l) with (TWord "ORDER" :: TWord "BY" :: commas (map (order_tok kw) l)).
    cbn [List.app]. change (eat "ORDER" (TWord "ORDER" :: ?x)) with (Some x). cbv beta iota.
    change (eat "BY" (TWord "BY" :: commas (map (order_tok kw) l) ++ rest)) with (Some (commas (map (order_tok kw) l) ++ rest)).
    cbv beta iota.
    pose proof (p_sep_commas (p_order d) (fun _ => True) (map (fun o => (order_tok kw o, (ord_column o, ord_desc o))) l)) as X.
    rewrite !map_map in X. cbn [fst snd] in X. change (map (fun x => order_tok kw x) l) with (map (order_tok kw) l) in X.
    rewrite X; try reflexivity; try exact I; try assumption; auto.
    + discriminate.
    + apply Forall_forall. intros it Hi. apply in_map_iff in Hi as (c & <- & _). intros r _. cbn [fst snd order_tok List.app].
      unfold p_order. rewrite (p_name_q d kw KW). destruct (ord_desc c); reflexivity.
    + rewrite map_length, app_length.
      assert (F : Forall (fun x : list tok => x <> []) (map (order_tok kw) l)).
      { apply Forall_forall. intros x Hx. apply in_map_iff in Hx as (c & <- & _). discriminate. }
      apply commas_length in F. rewrite map_length in F. lia.
Qed.
Lemma opt_int_parsed w n rest : is_kw w (TWord w) = true -> head_not w rest ->
  p_opt_int w (int_toks w n ++ rest) = Some (n, rest).
Proof.
  intros Hw Hr. unfold p_opt_int, head_not in *. destruct n as [n|]; cbn [int_toks List.app].
  - cbn [eat]. rewrite Hw. now rewrite p_int_znum.
  - now rewrite Hr.
Qed.

Definition the_select (cols : list string) t w (os : list Order) lim off : select :=
  {| sel_distinct := false; sel_cols := map (fun c => (None, c)) cols; sel_table := t; sel_joins := [];
     sel_where := w; sel_order := map (fun o => (ord_column o, ord_desc o)) os; sel_limit := lim; sel_offset := off |}.

Definition reads_opt (e : option BoolExpr) (x : option sexp) : Prop :=
  match e, x with Some e, Some x => reads 1 e x | None, None => True | _, _ => False end.

Lemma tail_rest os lim off :
  let r := order_toks kw os ++ int_toks "LIMIT" lim ++ int_toks "OFFSET" off in
  expr_rest r /\ head_not "WHERE" r /\ head_not "INNER" r.
Proof.
  cbv zeta. destruct os as [|o os].
  - cbn [order_toks List.app]. destruct lim as [l|]; [|destruct off as [n|]]; cbn [int_toks List.app];
      repeat split; try reflexivity; cbn; tauto.
  - cbn [order_toks List.app]. repeat split; try reflexivity. cbn. tauto.
Qed.

Lemma select_parsed cols t e os lim off :
  cols <> [] -> filter_can d e -> (lim = None -> off <> None -> d_offset_alone d = true) ->
  exists w, reads_opt e w /\
    p_stmt d (TWord "SELECT" :: cols_toks cols ++ TWord "FROM" :: qtok kw t
       :: where_ktoks kw 1 e ++ order_toks kw os ++ int_toks "LIMIT" lim ++ int_toks "OFFSET" off)
    = Some (Select (the_select cols t w os lim off), []).
Proof.
  intros NE Fc Off.
  set (tl := order_toks kw os ++ int_toks "LIMIT" lim ++ int_toks "OFFSET" off).
  pose proof (tail_rest os lim off) as (TR & TW & TI). fold tl in TR, TW, TI.
  assert (WP : exists w, reads_opt e w /\ p_where d (where_ktoks kw 1 e ++ tl) = Some (w, tl)).
  { destruct e as [e|].
    - destruct (cond_parsed 1 e Fc) as (x & Hx & Hr). exists (Some x). split; [exact Hr|].
      unfold p_where. cbn [where_ktoks List.app].
      change (eat "WHERE" (TWord "WHERE" :: toks 1 e ++ tl)) with (Some (toks 1 e ++ tl)). cbv beta iota.
      now rewrite Hx.
    - exists None. split; [exact I|]. unfold p_where. cbn [where_ktoks List.app]. now rewrite TW. }
  destruct WP as (w & Hr & Hw). exists w. split; [assumption|].
  set (wt := where_ktoks kw 1 e ++ tl) in *.
  assert (Inner : eat "INNER" wt = None).
  { unfold wt. destruct e; [reflexivity|exact TI]. }
  unfold p_stmt, p_select.
  change (eat "SELECT" (TWord "SELECT" :: ?x)) with (Some x). cbv beta iota.
  assert (Dist : forall r, eat "DISTINCT" (cols_toks cols ++ r) = None).
  { intros r. destruct cols as [|c [|c' cols]]; [congruence| |]; cbn [map].
    - cbn [commas List.app]. apply (core_eat_q d kw KW). cbv; tauto.
    - rewrite commas_cons. cbn [List.app]. apply (core_eat_q d kw KW). cbv; tauto. }
  rewrite Dist. cbv beta iota.
  rewrite colrefs_sep; [|assumption|exact I|exact I|apply cols_len].
  change (eat "FROM" (TWord "FROM" :: ?x)) with (Some x). cbv beta iota.
  rewrite (p_name_q d kw KW).
  assert (J : p_joins d (List.length wt) wt = Some ([], wt)) by (destruct wt; cbn [p_joins List.length]; now rewrite Inner).
  rewrite J, Hw. cbv beta iota. unfold tl at 1.
  rewrite orders_parsed.
  - cbv beta iota. rewrite opt_int_parsed; [|reflexivity|destruct off; reflexivity].
    cbv beta iota. rewrite <- (app_nil_r (int_toks "OFFSET" off)), opt_int_parsed; [|reflexivity|reflexivity].
    destruct lim as [l|], off as [n|]; try reflexivity. rewrite (Off eq_refl ltac:(discriminate)). reflexivity.
  - destruct lim, off; reflexivity.
  - destruct lim, off; exact I.
Qed.

Lemma delete_parsed t e : filter_can d (Some e) ->
  exists x, reads 1 e x /\
    p_stmt d (TWord "DELETE" :: TWord "FROM" :: qtok kw t :: TWord "WHERE" :: toks 1 e) = Some (Delete t x, []).
Proof.
  intros Fc. destruct (cond_parsed 1 e Fc) as (x & Hx & Hr). exists x. split; [assumption|].
  unfold p_stmt, p_select, p_insert, p_update, p_delete.
  change (eat "SELECT" (TWord "DELETE" :: ?x)) with (@None (list tok)).
  change (eat "INSERT" (TWord "DELETE" :: ?x)) with (@None (list tok)).
  change (eat "UPDATE" (TWord "DELETE" :: ?x)) with (@None (list tok)).
  change (eat "DELETE" (TWord "DELETE" :: ?x)) with (Some x). cbv beta iota.
  change (eat "FROM" (TWord "FROM" :: ?x)) with (Some x). cbv beta iota.
  rewrite (p_name_q d kw KW).
  change (eat "WHERE" (TWord "WHERE" :: ?x)) with (Some x). cbv beta iota.
  rewrite <- (app_nil_r (toks 1 e)), Hx; [reflexivity|]. repeat split.
Qed.

(** ** INSERT and UPDATE *)

Definition params (k n : nat) : list sexp := map (fun j => SParam (Z.of_nat j)) (seq k n).

Definition ret_toks (pk : option string) : list tok := match pk with Some p => [TWord "RETURNING"; TWord p] | None => [] end.
Lemma returning_parsed pk : match pk with Some p => reserved d p = false | None => True end ->
  p_returning d (ret_toks pk) = Some (pk, []).
Proof. destruct pk as [p|]; [|reflexivity]. intros H. unfold p_returning.
  change (eat "RETURNING" (ret_toks (Some p))) with (Some [TWord p]). cbv beta iota. unfold p_name. now rewrite H. Qed.
Lemma insert_parsed t cols pk : match pk with Some p => reserved d p = false | None => True end ->
  p_stmt d (insert_toks kw t cols 1 ++ ret_toks pk)
  = Some (match cols with [] => InsertDefaults t pk | _ => Insert t cols (params 1 (List.length cols)) Fail pk end, []).
Proof.
  intros Hp. unfold insert_toks. cbn [List.app]. unfold p_stmt, p_select, p_insert.
  change (eat "SELECT" (TWord "INSERT" :: ?x)) with (@None (list tok)).
  change (eat "INSERT" (TWord "INSERT" :: ?x)) with (Some x). cbv beta iota.
  change (eat "INTO" (TWord "INTO" :: ?x)) with (Some x). cbv beta iota.
  rewrite (p_name_q d kw KW). destruct cols as [|c l].
  - cbn [List.app]. change (eat "DEFAULT" (TWord "DEFAULT" :: ?x)) with (Some x). cbv beta iota.
    change (eat "VALUES" (TWord "VALUES" :: ?x)) with (Some x). cbv beta iota. now rewrite returning_parsed.
  - set (cs := c :: l). cbn [List.app].
    change (eat "DEFAULT" (TLP :: ?x)) with (@None (list tok)). cbv beta iota.
    replace ((cols_toks cs ++ TRP :: TWord "VALUES" :: TLP :: ptoks 1 (List.length cs) ++ [TRP]) ++ ret_toks pk)
      with (cols_toks cs ++ TRP :: TWord "VALUES" :: TLP :: ptoks 1 (List.length cs) ++ TRP :: ret_toks pk).
    2: { rewrite <- app_assoc. cbn [List.app]. now rewrite <- app_assoc. }
    rewrite paren_names by discriminate.
    change (eat "VALUES" (TWord "VALUES" :: ?x)) with (Some x). cbv beta iota.
    rewrite paren_params by (cbn; lia).
    assert (Cf : p_conflict d (ret_toks pk) = Some (Fail, ret_toks pk)) by (destruct pk; reflexivity).
    rewrite Cf. cbv beta iota. rewrite returning_parsed by assumption.
    unfold same_length. rewrite map_length, seq_length, Nat.eqb_refl. reflexivity.
Qed.

Lemma set_parsed c j r : p_set d (set_tok kw (c, j) ++ r) = Some ((c, SParam (Z.of_nat j)), r).
Proof.
  unfold p_set, set_tok. cbn [List.app fst snd]. rewrite (p_name_q d kw KW). now rewrite value_param.
Qed.
Lemma update_parsed t pk cols : cols <> [] ->
  p_stmt d (update_toks kw t pk cols 1)
  = Some (Update t (combine cols (params 1 (List.length cols)))
            (SOr [SAnd [SCmp CEq (SCol (None, pk)) (SParam (Z.of_nat (1 + List.length cols)))]]), []).
Proof.
  intros NE. unfold update_toks. unfold p_stmt, p_select, p_insert, p_update.
  change (eat "SELECT" (TWord "UPDATE" :: ?x)) with (@None (list tok)).
  change (eat "INSERT" (TWord "UPDATE" :: ?x)) with (@None (list tok)).
  change (eat "UPDATE" (TWord "UPDATE" :: ?x)) with (Some x). cbv beta iota.
  rewrite (p_name_q d kw KW).
  change (eat "SET" (TWord "SET" :: ?x)) with (Some x). cbv beta iota.
  set (cj := combine cols (seq 1 (List.length cols))).
  assert (Lc : List.length cj = List.length cols) by (unfold cj; rewrite combine_length, seq_length; lia).
  pose proof (p_sep_commas (p_set d) (fun _ => True) (map (fun x => (set_tok kw x, (fst x, SParam (Z.of_nat (snd x))))) cj)) as X.
  rewrite !map_map in X. cbn [fst snd] in X. change (map (fun x => set_tok kw x) cj) with (map (set_tok kw) cj) in X.
  rewrite X; clear X.
  - change (eat "WHERE" (TWord "WHERE" :: ?x)) with (Some x). cbv beta iota.
    assert (Y : p_expr d [qtok kw pk; TOp CEq; ptok (1 + List.length cols)]
                = Some (SOr [SAnd [SCmp CEq (SCol (None, pk)) (SParam (Z.of_nat (1 + List.length cols)))]], [])).
    { unfold p_expr, fuel_for. cbn [List.length]. change (8 * 3 + 8) with 32.
      rewrite p_or_S, p_and_S, p_not_S. rewrite (core_eat_q d kw KW) by (cbv; tauto). rewrite p_pred_S.
      rewrite (operand_q d kw KW) by exact I. reflexivity. }
    rewrite Y. do 3 f_equal. unfold cj, params. clear. generalize 1.
    induction cols as [|c l IH]; intros k; [reflexivity|]. cbn [List.length seq combine map fst snd]. f_equal. apply IH.
  - destruct cj; [destruct cols; [congruence|discriminate]|discriminate].
  - apply Forall_forall. intros it Hi. apply in_map_iff in Hi as ((c & j) & <- & _). intros r _. apply set_parsed.
  - auto.
  - exact I.
  - exact I.
  - rewrite map_length, app_length.
    assert (F : Forall (fun x : list tok => x <> []) (map (set_tok kw) cj)).
    { apply Forall_forall. intros x Hx. apply in_map_iff in Hx as (c & <- & _). discriminate. }
    apply commas_length in F. rewrite map_length in F. lia.
Qed.
End P.
