(** Filters across relations. *)
From Verif Require Import Base SqlVal Sql SqlStmt Query QuerySpec Stmt StmtSpec Macro MacroSpec
  LexProofs RenderProofs ParseProofs StmtMain MacroProofs.

Lemma means_frame E D e : forall f g, (forall c, In c (own_columns e) -> lookup (None, c) [f] = lookup (None, c) [g]) ->
  means E D f e = means E D g e.
Proof.
  assert (C : forall f g c x cmp, (forall c', In c' (c :: rhs_columns x) -> lookup (None, c') [f] = lookup (None, c') [g]) ->
     compare_col f c x cmp = compare_col g c x cmp).
  { intros f g c x cmp H. unfold compare_col. rewrite (H c) by now left. destruct (lookup (None, c) [g]); [|reflexivity]. cbn [obind2].
    destruct x; cbn [rhs]; try reflexivity. rewrite (H c0); [reflexivity|]. right. now left. }
  induction e as [|c x H|c x H|c x H|c x H|c x H|c x H|c x H|l H|a b Ha Hb|a b Ha Hb|a Ha|c t tc a Ha|c vs|c t c2 js a Ha]
    using filter_ind; intros f g Q; cbn [own_columns] in Q; cbn [means].
  - reflexivity.
  - rewrite (C f g c x _ Q). destruct x; try reflexivity. destruct v; try reflexivity. now rewrite (Q c) by now left.
  - rewrite (C f g c x _ Q). destruct x; try reflexivity. destruct v; try reflexivity. now rewrite (Q c) by now left.
  - apply C, Q.
  - apply C, Q.
  - apply C, Q.
  - apply C, Q.
  - apply C, Q.
  - f_equal. f_equal. induction H as [|e l He Hl IH]; [reflexivity|]. cbn [map flat_map] in *. f_equal.
    + apply He. intros c Hc. apply Q, in_or_app. now left.
    + apply IH. intros c Hc. apply Q, in_or_app. now right.
  - rewrite (Ha f g), (Hb f g); [reflexivity| |]; intros c Hc; apply Q, in_or_app; tauto.
  - rewrite (Ha f g), (Hb f g); [reflexivity| |]; intros c Hc; apply Q, in_or_app; tauto.
  - now rewrite (Ha f g Q).
  - now rewrite (Q c) by now left.
  - now rewrite (Q c) by now left.
  - now rewrite (Q c) by now left.
Qed.

Lemma link_column c l : link_row l -> c <> "owner"%string -> c <> "has"%string -> field c l = None.
Proof.
  intros (o & h & ->) N1 N2. cbn [field]. destruct (String.eqb_spec "owner" c) as [E|_]; [congruence|].
  destruct (String.eqb_spec "has" c) as [E|_]; [congruence|reflexivity].
Qed.

Section Text.
Variables (d : dialect) (kw : string -> bool) (E : engine) (D : db).
Hypotheses (KW : quotes_enough kw d) (EO : engine_ok E).

Theorem matches_correct b c f q :
  identifier c = true -> identifier (m_table f) = true -> identifier (m_pk f) = true ->
  bracket_free Anywhere q -> supported d q -> room b (List.length (bound_values q)) ->
  Forall (fun r => (exists k, field (m_pk f) r = Some k) /\ exists v, means E D [(m_table f, r)] q = Some v) (D (m_table f)) ->
  exists s x, filter_sql b kw (subfilter c f q) = Ok (s, bound_values q) /\ parse_cond d s = Some x
    /\ forall t r v, field c r = Some v ->
       exists w, struth E D (bound_values q) [[(t, r)]] x = Some w
       /\ (w = Some true <-> exists r2 k, In r2 (D (m_table f)) /\ field (m_pk f) r2 = Some k
             /\ compare3 E CEq v k = Some true /\ means E D [(m_table f, r2)] q = Some (Some true)).
Proof.
  intros Hc Ht Hp B S R F. rewrite Forall_forall in F.
  destruct (filter_correct d kw KW b (subfilter c f q)) as (s & x & Es & Ep & H);
    [exact B|cbn; tauto|exact R|].
  exists s, x. split; [exact Es|]. split; [exact Ep|]. intros t r v Hv.
  destruct (subquery_means E D [(t, r)] c v (m_table f) (m_pk f) q) as (w & Mw & Q).
  - rewrite StmtSem.lookup_row. exact Hv.
  - exact F.
  - exists w. split; [exact (H E D [(t, r)] w EO Mw)|exact Q].
Qed.

Theorem contains_correct b mt o f q :
  identifier (m_pk o) = true -> identifier mt = true -> identifier (m_table f) = true -> identifier (m_pk f) = true -> mt <> m_table f ->
  (forall c, In c (own_columns q) -> c <> "owner"%string /\ c <> "has"%string) ->
  bracket_free Anywhere q -> supported d q -> room b (List.length (bound_values q)) ->
  Forall (fun l => exists o h, l = [("owner", o); ("has", h)]) (D mt) ->
  Forall (fun r => (exists k, field (m_pk f) r = Some k) /\ exists v, means E D [(m_table f, r)] q = Some v) (D (m_table f)) ->
  exists s x, filter_sql b kw (contains mt o f q) = Ok (s, bound_values q) /\ parse_cond d s = Some x
    /\ forall t r v, field (m_pk o) r = Some v ->
       exists w, struth E D (bound_values q) [[(t, r)]] x = Some w
       /\ (w = Some true <-> exists l ow h r2 k, In l (D mt) /\ field "owner" l = Some ow /\ field "has" l = Some h
             /\ compare3 E CEq v ow = Some true
             /\ In r2 (D (m_table f)) /\ field (m_pk f) r2 = Some k
             /\ compare3 E CEq h k = Some true /\ means E D [(m_table f, r2)] q = Some (Some true)).
Proof.
  intros Ho Hm Ht Hp Hne Hq B S R L F.
  assert (Eq : forall r l, In l (D mt) -> means E D [(m_table f, r); (mt, l)] q = means E D [(m_table f, r)] q).
  { intros r l Hl. apply means_frame. intros c Hc. destruct (Hq c Hc) as [N1 N2]. rewrite Forall_forall in L.
    rewrite lookup_two by (apply link_column; auto; exact (L l Hl)). symmetry. apply StmtSem.lookup_row. }
  destruct (filter_correct d kw KW b (contains mt o f q)) as (s & x & Es & Ep & H); [exact B| |exact R|].
  { cbn [contains supported]. unfold contains. cbn [supported]. repeat split; auto. constructor; [|constructor]. repeat split; auto. }
  exists s, x. split; [exact Es|]. split; [exact Ep|]. intros t r v Hv.
  rewrite Forall_forall in F.
  destruct (contains_means E D [(t, r)] mt o f q v Hne) as (w & Mw & Q).
  - rewrite StmtSem.lookup_row. exact Hv.
  - exact L.
  - intros r2 l Hr Hl. rewrite (Eq r2 l Hl). now apply F.
  - exists w. split; [exact (H E D [(t, r)] w EO Mw)|]. rewrite Q. clear - Eq. split.
    + intros (l & r2 & ow & h & k & Hl & A). rewrite (Eq r2 l Hl) in A. exists l, ow, h, r2, k. tauto.
    + intros (l & ow & h & r2 & k & Hl & A). exists l, r2, ow, h, k. rewrite (Eq r2 l Hl). tauto.
Qed.
End Text.
