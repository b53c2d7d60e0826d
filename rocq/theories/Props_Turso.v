(** Property theorem C28: subqueries on the Turso backend. *)
From Coq Require Import Permutation.
From Verif Require Import Base SqlVal Sql SqlStmt Query QuerySpec Stmt StmtSpec Time Turso TursoSpec TursoProofs TursoExample Props_Query.

(** ** C28 *)

(** Replacing the subqueries of a filter keeps its truth on every row, and none remains. *)
Theorem C28_same_truth_partial : forall d kw E D C conn_query e p c f0 t0,
  quotes_enough kw d -> d_empty_in d = true -> engine_ok E -> stores_alike E -> answers C conn_query d E D ->
  bracket_free p e -> supported d e -> no_nested_subquery e -> storable (bound_values e) ->
  means E D f0 e = Some t0 ->
  exists e' c', transform_subqueries kw C conn_query c e = Ok (e', c')
    /\ no_subquery e' /\ bracket_free p e' /\ supported d e' /\ storable (bound_values e')
    /\ forall f, means E D f e' = means E D f e.
Proof.
  intros d kw E D C conn e p c f0 t0 K EI EK SA AN. exact (transform_correct d kw K E D C conn EK SA AN EI e p c f0 t0).
Qed.
Print Assumptions C28_same_truth_partial.

(** A query returns what it asks for. *)
Theorem C28_query_partial : forall d kw E D C conn_query c cols x lim out0,
  quotes_enough kw d -> d_empty_in d = true -> engine_ok E -> stores_alike E -> answers C conn_query d E D ->
  query_names_ok d x cols -> nonneg lim -> nonneg (q_offset x) ->
  (forall e, q_filter x = Some e -> no_nested_subquery e /\ exists f t, means E D f e = Some t) ->
  storable (query_values x) -> filter_ok E D (q_table x) (q_filter x) -> fits Sqlite x lim D ->
  returns E D x lim cols out0 ->
  exists out rows c', turso_query kw C conn_query c cols x lim = Ok (rows, c')
    /\ returns E D x lim cols out /\ Forall2 (Forall2 stored) out rows.
Proof.
  intros d kw E D C conn c cols x lim out0 K EI EK SA AN. exact (turso_query_correct d kw K E D C conn EK SA AN EI c cols x lim out0).
Qed.
Print Assumptions C28_query_partial.

(** Whatever the engine answers, no statement it was sent has a subquery. *)
Theorem C28_nothing_nested_sent_partial : forall d kw answer cols x lim rows log,
  quotes_enough kw d -> d_empty_in d = true -> query_names_ok d x cols ->
  (forall e, q_filter x = Some e -> no_nested_subquery e) ->
  turso_query kw (list string) (remember answer) [] cols x lim = Ok (rows, log) ->
  log <> [] /\ Forall (fun s => selects s = 1) log.
Proof. intros d kw answer cols x lim rows log K EI. exact (turso_query_sends d kw K answer EI cols x lim rows log). Qed.
Print Assumptions C28_nothing_nested_sent_partial.

Definition blog_db (t : string) : list row :=
  if String.eqb t "post" then [[("id", VInt 1); ("title", VText "a"); ("blog", VInt 10)]]
  else if String.eqb t "blog" then [[("id", VInt 10); ("open", VBool true)]]
  else if String.eqb t "tag" then [[("name", VText "u"); ("rank", VInt 2)]]
  else if String.eqb t "post_tags_Many" then [[("owner", VInt 1); ("has", VText "u")]]
  else [].
Definition of_table (t c : string) : Column := {| col_table := Some t; col_name := c |}.
Definition blog_filter : BoolExpr :=
  BAnd (BSubquery "blog" "blog" "id" (BEq "open" (EVal (VBool true))))
       (BNot (BSubqueryJoin "id" "post_tags_Many" (of_table "post_tags_Many" "owner")
                [{| join_table := "tag"; join_col1 := of_table "post_tags_Many" "has"; join_col2 := of_table "tag" "name" |}]
                (BGt "rank" (EVal (VInt 5))))).
Definition blog_query : Query :=
  {| q_table := "post"; q_filter := Some blog_filter; q_limit := None; q_offset := None; q_sort := [] |}.
Definition blog_conn := small_query sqlite_like blog_db.
Example C28_case : answers unit blog_conn sqlite_like lite_engine blog_db
  /\ engine_ok lite_engine /\ stores_alike lite_engine
  /\ query_names_ok sqlite_like blog_query ["title"] /\ no_nested_subquery blog_filter /\ storable (query_values blog_query)
  /\ filter_ok lite_engine blog_db "post" (Some blog_filter)
  /\ returns lite_engine blog_db blog_query None ["title"] [[VText "a"]]
  /\ transform_subqueries ex_kw unit blog_conn tt blog_filter
     = Ok (BAnd (BIn "blog" [VBigInt 10]) (BNot (BIn "id" [])), tt)
  /\ turso_query ex_kw unit blog_conn tt ["title"] blog_query None = Ok ([[TvText "a"]], tt).
Proof.
  assert (T : forall t, blog_db t = [] \/ exists r, blog_db t = [r] /\ forall c v, In (c, v) r -> exists u, stored v u).
  { intros t. unfold blog_db.
    repeat (match goal with |- context [if ?b then _ else _] => destruct b end;
            [right; eexists; split; [reflexivity|]; intros c v H; cbn in H;
             repeat (destruct H as [H|H]; [injection H as <- <-; eexists; constructor|]); contradiction|]).
    now left. }
  split; [apply small_answers|].
  - intros t. destruct (T t) as [->|(r & -> & _)]; cbn; lia.
  - intros t r c v H Hv. destruct (T t) as [E|(r0 & E & X)]; rewrite E in H; [destruct H|]. destruct H as [<-|[]]. eapply X; eauto.
  - split; [exact lite_ok|]. split; [exact lite_alike|].
    split; [cbn; repeat split; try discriminate; repeat constructor; try discriminate|].
    split; [cbn; tauto|]. split; [cbn; constructor; [eexists; constructor|constructor]|].
    split; [intros r [<-|[]]; eexists; reflexivity|].
    split; [|split; vm_compute; reflexivity].
    exists [[("id", VInt 1); ("title", VText "a"); ("blog", VInt 10)]]. split; [|split; [repeat constructor|reflexivity]].
    vm_compute. apply Permutation_refl.
Qed.
(** The statements sent for it. *)
Definition blog_answer (s : string) (ps : list tvalue) : outcome (list (list tvalue)) := fst (blog_conn tt s ps).
Example C28_sent : turso_query ex_kw (list string) (remember blog_answer) [] ["title"] blog_query None
  = Ok ([[TvText "a"]],
        ["SELECT DISTINCT id FROM blog WHERE open = ?";
         "SELECT DISTINCT post_tags_Many.owner FROM post_tags_Many INNER JOIN tag ON post_tags_Many.has = tag.name WHERE rank > 5";
         "SELECT title FROM post WHERE blog IN (10) AND NOT id IN ()"]%string).
Proof. vm_compute. reflexivity. Qed.

(** The claim for all filters fails: the condition inside a subquery is not looked at. *)
Definition nested_filter : BoolExpr :=
  BSubquery "blog" "blog" "id" (BSubquery "id" "post" "blog" (BEq "title" (EVal (VText "a")))).
Theorem C28_nested_subquery_refuted : exists e, bracket_free Anywhere e /\ supported sqlite_like e
  /\ (exists t, means lite_engine blog_db [("post", [("id", VInt 1); ("title", VText "a"); ("blog", VInt 10)])] e = Some t)
  /\ (forall answer, (forall s ps, selects s <> 1 -> answer s ps = Err (Internal "")) ->
        transform_subqueries ex_kw (list string) (remember answer) [] e = Err (Internal "")).
Proof.
  exists nested_filter. split; [exact I|]. split; [vm_compute; tauto|]. split; [eexists; vm_compute; reflexivity|].
  intros answer H. unfold nested_filter. cbn [transform_subqueries]. unfold run_subquery.
  replace (run unit tt (simple_subquery ex_kw "blog" "id" (BSubquery "id" "post" "blog" (BEq "title" (EVal (VText "a"))))))
    with (Ok ("SELECT DISTINCT id FROM blog WHERE id IN (SELECT blog FROM post WHERE title = ?)"%string, [VText "a"]))
    by (vm_compute; reflexivity).
  cbn [obind fst snd]. unfold execute_subquery_and_collect, send, remember. cbn [collect_all sqlval_to_turso obind].
  rewrite H; [reflexivity|]. vm_compute. discriminate.
Qed.
Print Assumptions C28_nested_subquery_refuted.
(** Nor does deleting by a filter replace anything. *)
Theorem C28_delete_refuted : exists t e, bracket_free Anywhere e /\ supported sqlite_like e /\ no_nested_subquery e
  /\ forall answer r log, turso_delete_where ex_kw (list string) (remember answer) [] t e = Ok (r, log) -> ~ Forall (fun s => selects s = 0) log.
Proof.
  exists "post"%string, (BSubquery "blog" "blog" "id" (BEq "open" (EVal (VInt 1)))).
  split; [exact I|]. split; [vm_compute; tauto|]. split; [exact I|]. intros answer r log. unfold turso_delete_where.
  replace (run unit tt _) with (Ok ("DELETE FROM post WHERE blog IN (SELECT id FROM blog WHERE open = 1)"%string, @nil SqlVal)) by (vm_compute; reflexivity).
  cbn [obind fst snd]. unfold send, remember. cbn [collect_all obind]. destruct (answer _ _); try discriminate. intros [= _ <-] F.
  inversion F as [|? ? H ?]; subst. vm_compute in H. discriminate.
Qed.
Print Assumptions C28_delete_refuted.
