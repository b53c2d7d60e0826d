(** Property theorems C20, C23, C27: the filter macro, default literals, filters
    across relations. *)
From Coq Require Import DecimalString.
From Verif Require Import Base SqlVal Adb Sql SqlStmt Query QuerySpec Stmt StmtSpec
  LexProofs RenderProofs ParseProofs StmtMain Props_Query
  Macro MacroSpec MacroProofs RelProofs Time Literal LiteralSpec LiteralProofs.

(** ** C20 *)

(** For every expression written without brackets (parentheses are refused by
    the macro) and without groups or copied conditions. *)
Theorem C20_macro_means_rust_partial : forall d kw b models E D n m e q,
  quotes_enough kw d -> engine_ok E -> models_ok models d -> tables_ok D models ->
  models n = Some m -> as_written d e -> handle models m e = Some (CCond q) ->
  room b (List.length (bound_values q)) ->
  exists s x, filter_sql b kw q = Ok (s, bound_values q) /\ parse_cond d s = Some x
    /\ forall r, In r (D (m_table m)) ->
       exists t, struth E D (bound_values q) [[(m_table m, r)]] x = Some t
         /\ (t = Some true <-> rust_true E D models m r e).
Proof.
  intros d kw b models E D n m e q KW EO MO TO Hm W H R.
  destruct (macro_good d models E D MO TO e n m q Hm H W) as (B & _ & S & M).
  destruct (filter_correct d kw KW b q B S R) as (s & x & Es & Ep & T). exists s, x. split; [exact Es|]. split; [exact Ep|].
  intros r Hr. destruct (M [(m_table m, r)] r) as (t & Et & Q).
  - apply present_row.
  - pose proof (proj1 TO n m Hm) as F. rewrite Forall_forall in F. now apply F.
  - exists t. split; [|exact Q]. now apply T.
Qed.
Print Assumptions C20_macro_means_rust_partial.
(** The macro accepts every such expression. *)
Theorem C20_macro_accepts : forall models m e, well_formed models m e -> exists q, handle models m e = Some (CCond q).
Proof. intros models m e. apply accepted. Qed.
Print Assumptions C20_macro_accepts.

Definition tag_model : model := {| m_table := "tag"; m_pk := "name"; m_fields := [("name", Plain); ("rank", Plain)] |}.
Definition blog_model : model := {| m_table := "blog"; m_pk := "id"; m_fields := [("id", Plain); ("name", Plain)] |}.
Definition post_model : model :=
  {| m_table := "post"; m_pk := "id";
     m_fields := [("id", Plain); ("title", Plain); ("likes", Plain); ("blog", Fk "Blog"); ("tags", ManyOf "post_tags_Many" "Tag")] |}.
Definition ex_models (n : string) : option model :=
  if String.eqb n "Post" then Some post_model else if String.eqb n "Blog" then Some blog_model
  else if String.eqb n "Tag" then Some tag_model else None.
Definition ex_db (t : string) : list row :=
  if String.eqb t "post" then
    [[("id", VInt 1); ("title", VText "a"); ("likes", VInt 5); ("blog", VInt 10)];
     [("id", VInt 2); ("title", VText "b"); ("likes", VNull); ("blog", VInt 11)]]
  else if String.eqb t "blog" then [[("id", VInt 10); ("name", VText "x")]; [("id", VInt 11); ("name", VText "y")]]
  else if String.eqb t "tag" then [[("name", VText "t"); ("rank", VInt 1)]; [("name", VText "u"); ("rank", VInt 2)]]
  else if String.eqb t "post_tags_Many" then [[("owner", VInt 1); ("has", VText "u")]; [("owner", VInt 2); ("has", VText "t")]]
  else [].
Definition ex_expr : rexpr :=
  RBin OOr (RBin OAnd (RCall (RPath "blog") MMatches [RBin OEq (RPath "name") (RLit (VText "x"))])
                      (RCall (RPath "tags") MContains [RBin OGt (RPath "rank") (RLit (VInt 1))]))
           (RBin OEq (RPath "likes") (RPath "None")).
Definition ex_q : BoolExpr := match handle ex_models post_model ex_expr with Some (CCond q) => q | _ => BTrue end.
Lemma ex_models_ok : models_ok ex_models pg_like.
Proof.
  assert (K : forall m, m = post_model \/ m = blog_model \/ m = tag_model -> model_ok ex_models pg_like m).
  { intros m Hm. unfold model_ok.
    assert (C : forall c k, kind_of m c = Some k -> In (c, k) (m_fields m)).
    { intros c k H. unfold kind_of in H. destruct (find _ _) as [[c' k']|] eqn:Ef; [|discriminate]. apply find_some in Ef as [I Ec].
      apply String.eqb_eq in Ec. cbn in Ec, H. injection H as <-. now subst. }
    split; [destruct Hm as [->|[->| ->]]; reflexivity|]. split; [destruct Hm as [->|[->| ->]]; split; reflexivity|].
    split; [destruct Hm as [->|[->| ->]]; reflexivity|]. split; [|split].
    - intros c k H. apply C in H. destruct Hm as [->|[->| ->]]; cbn in H;
        repeat (destruct H as [H|H]; [injection H as <- <-; split; reflexivity|]); contradiction.
    - intros c t H. apply C in H. destruct Hm as [->|[->| ->]]; cbn in H;
        repeat (destruct H as [H|H]; [try discriminate H; injection H as <- <-; eexists; reflexivity|]); contradiction.
    - intros c mt t H. apply C in H.
      assert (X : mt = "post_tags_Many"%string /\ t = "Tag"%string).
      { destruct Hm as [->|[->| ->]]; cbn in H; intuition congruence. }
      destruct X as [-> ->]. split; [reflexivity|]. exists tag_model. repeat split; try reflexivity. discriminate. }
  intros n m H. apply K. unfold ex_models in H.
  destruct (String.eqb n "Post"); [injection H as <-; tauto|]. destruct (String.eqb n "Blog"); [injection H as <-; tauto|].
  destruct (String.eqb n "Tag"); [injection H as <-; tauto|discriminate].
Qed.
Lemma ex_tables_ok : tables_ok ex_db ex_models.
Proof.
  assert (H0 : forall n m, ex_models n = Some m -> m = post_model \/ m = blog_model \/ m = tag_model).
  { intros n m H. unfold ex_models in H.
    destruct (String.eqb n "Post"); [injection H as <-; tauto|]. destruct (String.eqb n "Blog"); [injection H as <-; tauto|].
    destruct (String.eqb n "Tag"); [injection H as <-; tauto|discriminate]. }
  assert (C : forall m c k, kind_of m c = Some k -> In (c, k) (m_fields m)).
  { intros m c k H. unfold kind_of in H. destruct (find _ _) as [[c' k']|] eqn:Ef; [|discriminate]. apply find_some in Ef as [I Ec].
    apply String.eqb_eq in Ec. cbn in Ec, H. injection H as <-. now subst. }
  split.
  - intros n m H. apply Forall_forall. intros r Hr c (k & Hk & NM). apply C in Hk.
    assert (F : forallb (fun ck => match snd ck with ManyOf _ _ => true | _ => match field (fst ck) r with Some _ => true | None => false end end) (m_fields m) = true).
    { destruct (H0 n m H) as [->|[->| ->]]; cbn in Hr; (destruct Hr as [<-|[<-|[]]]; vm_compute; reflexivity). }
    rewrite forallb_forall in F. specialize (F _ Hk). cbn in F. destruct k; [| |contradiction];
      (destruct (field c r); [eauto|discriminate]).
  - intros n m c mt t H K. apply C in K.
    assert (X : mt = "post_tags_Many"%string).
    { destruct (H0 n m H) as [->|[->| ->]]; cbn in K; intuition congruence. }
    subst mt. repeat constructor; eexists; eexists; reflexivity.
Qed.
(** A case that meets all hypotheses: the first post by its blog and tag, the
    second by having no number of likes. *)
Example C20_case : well_formed ex_models post_model ex_expr /\ as_written pg_like ex_expr
  /\ handle ex_models post_model ex_expr = Some (CCond ex_q)
  /\ room (Pg true) (List.length (bound_values ex_q))
  /\ filter_sql (Pg true) ex_kw ex_q
     = Ok ("blog IN (SELECT id FROM blog WHERE name = $1) AND id IN (SELECT post_tags_Many.owner FROM tag INNER JOIN post_tags_Many ON post_tags_Many.has = tag.name WHERE rank > 1) OR likes IS NULL"%string, [VText "x"])
  /\ means ex_engine ex_db [("post", [("id", VInt 1); ("title", VText "a"); ("likes", VInt 5); ("blog", VInt 10)])] ex_q = Some (Some true).
Proof.
  split; [|split; [|split; [vm_compute; reflexivity|split; [vm_compute; lia|split; vm_compute; reflexivity]]]].
  - split; [split|].
    + exists "Blog", blog_model. split; [reflexivity|]. split; [reflexivity|]. split; [discriminate|]. split; [discriminate|]. now left.
    + exists "post_tags_Many", "Tag", tag_model. split; [reflexivity|]. split; [reflexivity|]. split; [discriminate|]. split; [discriminate|reflexivity].
    + split; [discriminate|]. split; [discriminate|]. left. reflexivity.
  - cbn. repeat split; discriminate.
Qed.

(** A group around an alternative (a macro fragment passed on) is dropped, and the
    text then groups differently.  The expression has a meaning in Rust:
    (b = 1 or a = 1) and c = 1. *)
Definition group_expr : rexpr :=
  RBin OAnd (RGroup (RBin OOr (RBin OEq (RPath "a") (RLit (VInt 1))) (RBin OEq (RPath "b") (RLit (VInt 1)))))
            (RBin OEq (RPath "c") (RLit (VInt 1))).
Definition abc_model : model := {| m_table := "t"; m_pk := "a"; m_fields := [("a", Plain); ("b", Plain); ("c", Plain)] |}.
Theorem C20_group_refuted : exists q, handle (fun _ => Some abc_model) abc_model group_expr = Some (CCond q)
  /\ means ex_engine (fun _ => []) ex_row q = Some (Some false)
  /\ truth_of Sqlite sqlite_like q ex_row = Some (Some true).
Proof. eexists. split; [reflexivity|]. split; vm_compute; reflexivity. Qed.
Print Assumptions C20_group_refuted.

(** ** C23 *)

(** [show]: Rust's formatting of floats, assumed to print shortest digits;
    [read]: the reading of numbers by the engine. *)
Theorem C23_literal_partial : forall read show v, display_ok read show -> readable_literal v ->
  exists s, sql_literal_value show v = Ok s /\ literal_for read s v.
Proof. intros read show v H. exact (literal_reads read show H v). Qed.
Print Assumptions C23_literal_partial.
(** A text is written as what it is exactly if it has no quote in it. *)
Theorem C23_text_exact : forall read show s,
  (exists l, sql_literal_value show (VText s) = Ok l /\ literal_for read l (VText s))
  <-> all_chars (fun c => negb (Ascii.eqb c "'")) s = true.
Proof. exact text_literal_exact. Qed.
Print Assumptions C23_text_exact.
(** No date is. *)
Theorem C23_date_refuted : forall read show d s, valid_date d = true ->
  sql_literal_value show (VDate d) = Ok s -> ~ literal_for read s (VDate d).
Proof. intros read show d s V. exact (date_literal_tokens read d V show s). Qed.
Print Assumptions C23_date_refuted.
(** Neither is JSON that is a number, an object or null; null is read as NULL. *)
Theorem C23_json_refuted : forall read show,
  Forall (fun j => forall s, sql_literal_value show (VJson j) = Ok s -> ~ literal_for read s (VJson j)) ["null"%string; "{}"%string; "3"%string]
  /\ exists s, sql_literal_value show (VJson "null") = Ok s /\ literal_for read s VNull.
Proof.
  intros read show. split.
  - repeat constructor; intros s H (ts & Dn & L); injection H as <-; specialize (L ""%string I); vm_compute in L;
      inversion Dn; subst; discriminate L.
  - exists "null"%string. split; [reflexivity|]. exists [TWord "null"]. split; [now constructor|]. intros rest Hr.
    apply (lex_ident "null"); [reflexivity|]. now apply after_delim.
Qed.
Print Assumptions C23_json_refuted.
(** A text can end the statement and start another. *)
Theorem C23_text_extends_statement_refuted : forall show,
  exists v s, sql_literal_value show v = Ok s
    /\ lex s = [TStr ""; TSemi; TWord "DROP"; TWord "TABLE"; TWord "post"; TSemi; TStr ""].
Proof. intros show. exists (VText "'; DROP TABLE post; '"). eexists. split; [reflexivity|]. vm_compute. reflexivity. Qed.
Print Assumptions C23_text_extends_statement_refuted.
(** A number that is not finite is written as a word. *)
Theorem C23_not_finite_refuted : forall read show r, display_ok read show -> f64_finite r = false ->
  forall s, sql_literal_value show (VReal r) = Ok s -> ~ literal_for read s (VReal r).
Proof.
  intros read show r (_ & Nan & Inf) F s H (ts & Dn & L). cbn in H. injection H as <-.
  specialize (L ""%string I). rewrite str_app_nil_r in L. unfold lex in L. cbn [lex_from lflush] in L. rewrite app_nil_r in L.
  assert (K : (9218868437227405312 <= f64_mag r)%Z) by (unfold f64_finite in F; apply Z.ltb_ge in F; exact F).
  assert (T : ts = lex "NaN" \/ ts = lex "inf" \/ ts = lex "-inf").
  { destruct (Z.ltb_spec 9218868437227405312 (f64_mag r)) as [G|G].
    - left. rewrite <- L, (Nan r); [reflexivity|]. unfold f64_is_nan. now apply Z.ltb_lt.
    - right. rewrite <- L. destruct (Inf r ltac:(lia)) as [-> | ->]; [now left|now right]. }
  clear L. destruct T as [->|[->| ->]]; vm_compute in Dn; inversion Dn.
Qed.
Print Assumptions C23_not_finite_refuted.
(** Without a default given, the value is NULL where that is allowed and else a
    neutral value of the column's type. *)
Inductive neutral : SqlType -> SqlVal -> Prop :=
| neutral_bool : neutral TBool (VBool false)
| neutral_int : neutral TInt (VInt 0)
| neutral_bigint : neutral TBigInt (VInt 0)
| neutral_real r : f64_is_zero r = true -> neutral TReal (VReal r)
| neutral_text : neutral TText (VText "")
| neutral_blob : neutral TBlob (VBlob "")
| neutral_json : neutral TJson (VJson "null")
| neutral_date d : valid_date d = true -> neutral TDate (VDate d)
| neutral_timestamp t : valid_timestamp t = true -> neutral TTimestamp (VTimestamp t).
Theorem C23_default_value : forall c v, column_default c = Ok v <->
  match c_default c with
  | Some w => v = w
  | None => if c_nullable c then v = VNull
            else exists t, typeid c = Ok (TyId t) /\ neutral t v
                 /\ (forall d, v = VDate d -> d = {| d_year := 1; d_month := 1; d_day := 1 |})
                 /\ (forall u, v = VTimestamp u -> u = {| t_date := {| d_year := 1970; d_month := 1; d_day := 1 |}; t_hour := 0; t_min := 0; t_sec := 0; t_nano := 0 |})
                 /\ (forall r, v = VReal r -> r = 0%Z)
  end.
Proof.
  intros c v. unfold column_default. destruct (c_default c); [split; congruence|]. destruct (c_nullable c); [split; congruence|].
  split.
  - destruct (typeid c) as [[t|s]| |]; cbn [obind]; try discriminate. destruct t; try discriminate; intros H; injection H as <-; eexists;
      (split; [reflexivity|]; split; [constructor; reflexivity|repeat split; intros ? HH; (discriminate HH || (injection HH as <-; reflexivity))]).
  - intros (t & -> & N & Hd & Ht & Hr). cbn [obind]. inversion N; subst; try reflexivity; f_equal; f_equal; symmetry; auto.
Qed.
Print Assumptions C23_default_value.
(** A formatting that meets [display_ok] (digits of the bit pattern). *)
Definition bits_show (r : f64) : string :=
  if f64_finite r then dec r else if f64_is_nan r then "NaN" else "inf".
Definition bits_read (neg : bool) (n : string) : f64 :=
  match number_of n with Some z => if neg then (- z)%Z else z | None => 0%Z end.
Example C23_display_case : display_ok bits_read bits_show.
Proof.
  assert (Dg : forall u, u <> Decimal.Nil -> numeral (NilEmpty.string_of_uint u)).
  { intros u N. pose proof (digits_uint u) as G. pose proof (string_uint_nonempty u N) as NE.
    destruct (NilEmpty.string_of_uint u) as [|c r]; [congruence|]. cbn in G. apply andb_true_iff in G as [G1 G2].
    exists c, r. split; [reflexivity|]. split; [exact G1|]. clear - G2. induction r as [|c r IH]; [reflexivity|].
    cbn in *. apply andb_true_iff in G2 as [-> G2]. now apply IH. }
  split; [|split].
  - intros r F. unfold bits_show. rewrite F. unfold dec. pose proof (to_int_nonnil r) as N. pose proof (of_to_int r) as E.
    destruct (Z.to_int r) as [u|u]; cbn in E, N |- *.
    + exists false, (NilEmpty.string_of_uint u). split; [reflexivity|]. split; [now apply Dg|]. unfold bits_read. now rewrite number_of_uint.
    + exists true, (NilEmpty.string_of_uint u). split; [reflexivity|]. split; [now apply Dg|]. unfold bits_read. now rewrite number_of_uint.
  - intros r H. unfold bits_show. rewrite H. unfold f64_finite. unfold f64_is_nan in H. apply Z.ltb_lt in H.
    destruct (Z.ltb_spec (f64_mag r) 9218868437227405312); [lia|reflexivity].
  - intros r H. unfold bits_show, f64_finite, f64_is_nan. rewrite H. now left.
Qed.
Example C23_case : (exists r, f64_finite r = true /\ f64_finite 9218868437227405312%Z = false /\ r = 4607182418800017408%Z)
  /\ readable_literal (VText "a; -- b") /\ readable_literal (VTimestamp epoch) /\ valid_date day_one = true
  /\ (exists s, sql_literal_value (fun _ => "1"%string) (VBlob "a'b") = Ok s /\ s = "x'612762'"%string).
Proof.
  split; [eexists; repeat split; reflexivity|]. split; [reflexivity|]. split; [reflexivity|]. split; [reflexivity|].
  eexists. split; vm_compute; reflexivity.
Qed.

(** ** C27 *)

Theorem C27_matches : forall d kw b E D c f q,
  quotes_enough kw d -> engine_ok E ->
  identifier c = true -> identifier (m_table f) = true -> identifier (m_pk f) = true ->
  bracket_free Anywhere q -> supported d q -> room b (List.length (bound_values q)) ->
  Forall (fun r => (exists k, field (m_pk f) r = Some k) /\ exists v, means E D [(m_table f, r)] q = Some v) (D (m_table f)) ->
  exists s x, filter_sql b kw (subfilter c f q) = Ok (s, bound_values q) /\ parse_cond d s = Some x
    /\ forall t r v, field c r = Some v ->
       exists w, struth E D (bound_values q) [[(t, r)]] x = Some w
       /\ (w = Some true <-> exists r2 k, In r2 (D (m_table f)) /\ field (m_pk f) r2 = Some k
             /\ compare3 E CEq v k = Some true /\ means E D [(m_table f, r2)] q = Some (Some true)).
Proof. intros d kw b E D c f q KW EO. exact (matches_correct d kw E D KW EO b c f q). Qed.
Print Assumptions C27_matches.
Theorem C27_contains_partial : forall d kw b E D mt o f q,
  quotes_enough kw d -> engine_ok E ->
  identifier (m_pk o) = true -> identifier mt = true -> identifier (m_table f) = true -> identifier (m_pk f) = true -> mt <> m_table f ->
  (forall c, In c (own_columns q) -> c <> "owner"%string /\ c <> "has"%string) ->
  bracket_free Anywhere q -> supported d q -> room b (List.length (bound_values q)) ->
  Forall (fun l => exists o h, l = [("owner", o); ("has", h)]) (D mt) ->
  Forall (fun r => (exists k, field (m_pk f) r = Some k) /\ exists v, means E D [(m_table f, r)] q = Some v) (D (m_table f)) ->
  exists s x, filter_sql b kw (contains mt o f q) = Ok (s, bound_values q) /\ parse_cond d s = Some x
    /\ forall t r v, field (m_pk o) r = Some v ->
       exists w, struth E D (bound_values q) [[(t, r)]] x = Some w
       /\ (w = Some true <-> exists l ow h r2 k, In l (D mt) /\ field "owner" l = Some ow /\ field "has" l = Some h
             /\ compare3 E CEq v ow = Some true
             /\ In r2 (D (m_table f)) /\ field (m_pk f) r2 = Some k
             /\ compare3 E CEq h k = Some true /\ means E D [(m_table f, r2)] q = Some (Some true)).
Proof. intros d kw b E D mt o f q KW EO. exact (contains_correct d kw E D KW EO b mt o f q). Qed.
Print Assumptions C27_contains_partial.
(** Given a key instead of a filter, the related object is the one with the key. *)
Theorem C27_by_key : forall mt o f c v,
  subfilterpk c f v = subfilter c f (BEq (m_pk f) (EVal v))
  /\ containspk mt o f v = contains mt o f (BEq (m_pk f) (EVal v))
  /\ (forall E D r k, v <> VNull -> field (m_pk f) r = Some k ->
      means E D [(m_table f, r)] (BEq (m_pk f) (EVal v)) = Some (compare3 E CEq k v)).
Proof.
  intros mt o f c v. split; [reflexivity|]. split; [reflexivity|]. intros E D r k N Hk.
  destruct v; try congruence; cbn [means]; unfold compare_col; rewrite StmtSem.lookup_row, Hk; reflexivity.
Qed.
Print Assumptions C27_by_key.
Definition ranked : BoolExpr := BGt "rank" (EVal (VInt 1)).
Example C27_case :
  Forall (fun r => (exists k, field (m_pk tag_model) r = Some k) /\ exists v, means ex_engine ex_db [(m_table tag_model, r)] ranked = Some v) (ex_db "tag")
  /\ supported pg_like ranked /\ (forall c, In c (own_columns ranked) -> c <> "owner"%string /\ c <> "has"%string)
  /\ map (fun r => means ex_engine ex_db [("post", r)] (contains "post_tags_Many" post_model tag_model ranked)) (ex_db "post") = [Some (Some true); Some (Some false)]
  /\ map (fun r => means ex_engine ex_db [("post", r)] (subfilter "blog" blog_model (BEq "name" (EVal (VText "y"))))) (ex_db "post") = [Some (Some false); Some (Some true)].
Proof.
  split; [repeat constructor; eexists; vm_compute; reflexivity|]. split; [repeat split; reflexivity|].
  split; [intros c [<-|[]]; split; discriminate|]. split; vm_compute; reflexivity.
Qed.
(** If the items have a column named owner themselves, filtering on it names two columns. *)
Definition owned_model : model := {| m_table := "thing"; m_pk := "id"; m_fields := [("id", Plain); ("owner", Plain)] |}.
Definition owned_db (t : string) : list row :=
  if String.eqb t "thing" then [[("id", VInt 7); ("owner", VText "me")]]
  else if String.eqb t "box_things_Many" then [[("owner", VInt 1); ("has", VInt 7)]] else [].
Definition owned_q : BoolExpr := contains "box_things_Many" {| m_table := "box"; m_pk := "id"; m_fields := [("id", Plain)] |} owned_model
    (BEq "owner" (EVal (VText "me"))).
Theorem C27_owner_column_refuted : exists s x,
  filter_sql Sqlite ex_kw owned_q = Ok (s, bound_values owned_q) /\ parse_cond sqlite_like s = Some x
  /\ means ex_engine owned_db [("thing", [("id", VInt 7); ("owner", VText "me")])] (BEq "owner" (EVal (VText "me"))) = Some (Some true)
  /\ struth ex_engine owned_db (bound_values owned_q) [[("box", [("id", VInt 1)])]] x = None.
Proof.
  assert (H : exists s, filter_sql Sqlite ex_kw owned_q = Ok (s, bound_values owned_q) /\ s = text_of Sqlite owned_q)
    by (eexists; split; [vm_compute; reflexivity|vm_compute; reflexivity]).
  destruct H as (s & Es & E). destruct (parse_cond sqlite_like s) as [x|] eqn:Ep.
  - exists s, x. split; [exact Es|]. split; [exact Ep|]. split; [vm_compute; reflexivity|].
    subst s. assert (T : struth ex_engine owned_db (bound_values owned_q) [[("box", [("id", VInt 1)])]]
      (match parse_cond sqlite_like (text_of Sqlite owned_q) with Some x => x | None => x end) = None) by (vm_compute; reflexivity).
    rewrite Ep in T. exact T.
  - subst s. exfalso. revert Ep. vm_compute. discriminate.
Qed.
Print Assumptions C27_owner_column_refuted.
