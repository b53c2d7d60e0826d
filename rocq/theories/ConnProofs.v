(** What the operations of a connection do. *)
From Coq Require Import Permutation.
From Verif Require Import Base SqlVal Sql SqlStmt Query QuerySpec Stmt StmtSpec StmtMain StmtSem Conn ObjSpec.

(** The answer to a statement whose effect is [D']. *)
Definition by_fate (w : world) (D' : db) : outcome unit * world :=
  match next_fate w with
  | Works => (Ok tt, after w D')
  | Refused => (Err (DbError 0), after w (w_db w))
  | Lost => (Err (DbError 0), after w D')
  end.

Lemma with_table_same D t rows : with_table D t rows t = rows.
Proof. unfold with_table. now rewrite String.eqb_refl. Qed.
Lemma with_table_other D t rows n : n <> t -> with_table D t rows n = D n.
Proof. unfold with_table. destruct (String.eqb_spec n t); congruence. Qed.

Section Conn.
Variables (d : dialect) (kw : string -> bool) (b : backend) (E : engine).
Variable gen : db -> string -> list string -> row.
Hypothesis KW : quotes_enough kw d.
Hypothesis EO : engine_ok E.

Lemma run_stmt_fate s st vs w D' r : parse_stmt d s = Some st ->
  exec E (gen (w_db w)) (w_db w) vs st = Some (D', r) ->
  run_stmt d E gen (Ok s) vs w =
  match next_fate w with
  | Works => (Ok r, after w D')
  | Refused => (Err (DbError 0), after w (w_db w))
  | Lost => (Err (DbError 0), after w D')
  end.
Proof. intros P X. unfold run_stmt. destruct (next_fate w); [|reflexivity|]; rewrite P, X; reflexivity. Qed.
Lemma done_fate s st vs w D' r : parse_stmt d s = Some st ->
  exec E (gen (w_db w)) (w_db w) vs st = Some (D', r) ->
  done (run_stmt d E gen (Ok s) vs w) = by_fate w D'.
Proof. intros P X. rewrite (run_stmt_fate s st vs w D' r P X). unfold done, by_fate. now destruct (next_fate w). Qed.

Definition inserted (D : db) (t : string) (cols : list string) (vs : list SqlVal) : db :=
  with_table D t (D t ++ [combine cols vs ++ gen D t cols]).

Lemma insert_only_effect t cols vs w : identifier t = true -> Forall (fun c => identifier c = true) cols ->
  room b (length cols) -> length vs = length cols ->
  conn_insert_only d kw b E gen t cols vs w = by_fate w (inserted (w_db w) t cols vs).
Proof.
  intros Ht Hc R L. destruct (insert_correct d kw KW b t cols Ht Hc R) as (s & st & Es & Ep & X).
  unfold conn_insert_only. rewrite Es. eapply done_fate; [exact Ep|]. now apply X.
Qed.

Lemma insert_returning_ok t cols pk vs w kv w' : identifier t = true -> Forall (fun c => identifier c = true) cols ->
  bare_name d pk -> room b (length cols) -> length vs = length cols ->
  conn_insert_returning_pk d kw b E gen t cols pk vs w = (Ok kv, w') ->
  w_db w' = inserted (w_db w) t cols vs /\ field pk (combine cols vs ++ gen (w_db w) t cols) = Some kv.
Proof.
  intros Ht Hc Hp R L. unfold conn_insert_returning_pk. destruct b as [|ck] eqn:Eb.
  - destruct (insert_correct d kw KW Sqlite t cols Ht Hc R) as (s & st & Es & Ep & X).
    change (insert_returning_sql Sqlite kw t cols pk) with (insert_sql Sqlite kw t cols). rewrite Es.
    rewrite (run_stmt_fate s st vs w _ _ Ep (X E (w_db w) (gen (w_db w)) vs L)).
    destruct (next_fate w); try discriminate. cbn [w_db after]. rewrite with_table_same, last_last.
    destruct (next_fate _); try discriminate. destruct (field pk _) eqn:Ef; [|discriminate].
    intros H. inversion H; subst. split; reflexivity.
  - destruct (insert_returning_correct d kw KW ck t cols pk Ht Hc Hp R) as (s & st & Es & Ep & X).
    rewrite Es, (run_stmt_fate s st vs w _ _ Ep (X E (w_db w) (gen (w_db w)) vs L)).
    destruct (next_fate w); try discriminate. destruct (field pk _) eqn:Ef; [|discriminate].
    intros H. inversion H; subst. split; reflexivity.
Qed.

Lemma update_effect t pk kv cols vs w : identifier t = true -> identifier pk = true -> cols <> [] ->
  Forall (fun c => identifier c = true) cols -> room b (S (length cols)) -> length vs = length cols ->
  Forall (row_has (pk :: cols)) (w_db w t) ->
  conn_update d kw b E gen t pk kv cols vs w
  = by_fate w (with_table (w_db w) t (rewrite_rows (has_key E pk kv) (assign (combine cols vs)) (w_db w t))).
Proof.
  intros Ht Hp NE Hc R L F. destruct (update_correct d kw KW b t pk cols Ht Hp NE Hc R) as (s & st & Es & Ep & X).
  unfold conn_update. rewrite Es. eapply done_fate; [exact Ep|]. now apply X.
Qed.

Lemma upsert_effect t pk cols vs kv w : reserved d "excluded" = false -> t <> "excluded" ->
  identifier t = true -> identifier pk = true ->
  Forall (fun c => identifier c = true) cols -> length vs = length cols -> NoDup cols -> In pk cols ->
  field pk (combine cols vs) = Some kv -> Forall (row_has cols) (w_db w t) ->
  conn_insert_or_replace d kw b E gen t cols pk vs w
  = by_fate w (if existsb (has_key E pk kv) (w_db w t)
               then (if Nat.ltb 1 (length cols)
                     then with_table (w_db w) t (rewrite_rows (has_key E pk kv) (assign (combine cols vs)) (w_db w t)) else w_db w)
               else inserted (w_db w) t cols vs).
Proof.
  intros EX Nx Ht Hp Hc L ND Hin Hk F.
  assert (NE : cols <> []) by (intros ->; contradiction).
  destruct (upsert_correct d kw KW b t pk cols EX Ht Hp NE Hc) as (st & Ep & X).
  unfold conn_insert_or_replace. erewrite (done_fate _ st vs w); [reflexivity|exact Ep|].
  rewrite (X E (w_db w) (gen (w_db w)) vs kv Nx L ND Hin Hk F).
  destruct (existsb _ _); [destruct (Nat.ltb _ _)|]; reflexivity.
Qed.

Lemma delete_where_effect t e w : identifier t = true -> bracket_free Anywhere e -> supported d e ->
  room b (length (bound_values e)) -> filter_ok E (w_db w) t (Some e) ->
  conn_delete_where d kw b E gen t e w
  = by_fate w (with_table (w_db w) t (filter (fun r => negb (row_matches E (w_db w) t (Some e) r)) (w_db w t))).
Proof.
  intros Ht B S R F. set (x := set_filter e (q_new t)).
  assert (Q : query_names_ok d x [q_table x]).
  { split; [exact Ht|]. split; [discriminate|]. split; [repeat constructor; exact Ht|]. split; [constructor|]. split; assumption. }
  destruct (delete_correct d kw KW b x Q R) as (s & st & Es & Ep & X).
  unfold conn_delete_where. fold x. rewrite Es. eapply done_fate; [exact Ep|].
  exact (X E (w_db w) (gen (w_db w)) EO F).
Qed.

Lemma query_effect cols x w r w' : query_names_ok d x cols -> room b (length (query_values x)) -> reads_sql b d ->
  nonneg (q_limit x) -> nonneg (q_offset x) -> filter_ok E (w_db w) (q_table x) (q_filter x) ->
  fits b x (q_limit x) (w_db w) ->
  (query_answers d kw b E cols x w r w' <->
   w' = after w (w_db w) /\
   match next_fate w with
   | Works => (exists out, r = Ok out /\ returns E (w_db w) x (q_limit x) cols out)
              \/ (r = Err (DbError 1) /\ forall out, ~ returns E (w_db w) x (q_limit x) cols out)
   | _ => r = Err (DbError 0)
   end).
Proof.
  intros Q R RS Hl Ho F Fi. destruct (fetch_correct d kw KW b cols x (q_limit x) Q R RS Hl Ho) as (s & sel & Es & Ep & M).
  assert (El : load_sql b kw cols x = Ok (s, query_values x)) by (destruct b; exact Es).
  unfold query_answers. rewrite El, Ep. specialize (M E (w_db w) EO F Fi).
  destruct (next_fate w); try tauto. split; (intros [H1 H2]; split; [exact H1|]).
  - destruct H2 as [(out & E1 & H2)|[E1 H2]]; [left|right].
    + exists out. split; [exact E1|]. now apply M.
    + split; [exact E1|]. intros out Hr. now apply (H2 out), M.
  - destruct H2 as [(out & E1 & H2)|[E1 H2]]; [left|right].
    + exists out. split; [exact E1|]. now apply M.
    + split; [exact E1|]. intros out Hr. now apply (H2 out), M.
Qed.

End Conn.

Section Columns.
Variable E : engine.
(** * Conditions on one column *)

Lemma eq_matches D t c v (r : row) : v <> VNull -> row_matches E D t (Some (BEq c (EVal v))) r = has_key E c v r.
Proof.
  intros N. unfold row_matches, has_key.
  assert (Em : means E D [(t, r)] (BEq c (EVal v)) = compare_col [(t, r)] c (EVal v) (compare3 E CEq))
    by (destruct v; try reflexivity; congruence).
  rewrite Em. unfold compare_col. rewrite lookup_row. destruct (field c r); reflexivity.
Qed.
Lemma eq_ok D t c v : Forall (fun r => In c (map fst r)) (D t) -> filter_ok E D t (Some (BEq c (EVal v))).
Proof.
  intros F r Hr. rewrite Forall_forall in F. specialize (F r Hr).
  assert (exists x, field c r = Some x) as (x & Hx).
  { clear - F. induction r as [|[n y] r IH]; [contradiction|]. cbn in *. destruct (String.eqb_spec n c) as [Heq|Hne]; [eauto|].
    apply IH. destruct F as [F|F]; [congruence|assumption]. }
  destruct v; cbn [means]; unfold compare_col; rewrite lookup_row, Hx; cbn [obind2 rhs]; eauto.
Qed.
Lemma or3_true a c : or3 a c = Some true <-> a = Some true \/ c = Some true.
Proof. destruct a as [[|]|], c as [[|]|]; cbn; intuition congruence. Qed.
Lemma in3_among x l : in3 E x l = Some true <-> among E x l = true.
Proof.
  unfold in3, among. induction l as [|v l IH]; cbn; [split; discriminate|].
  rewrite or3_true, IH, orb_true_iff.
  assert (H : compare3 E CEq x v = Some true <-> same E x v = true)
    by (unfold same; destruct (compare3 E CEq x v) as [[|]|]; split; congruence).
  now rewrite H.
Qed.
Lemma in_matches D t c l (r : row) :
  row_matches E D t (Some (BIn c l)) r = match field c r with Some x => among E x l | None => false end.
Proof.
  unfold row_matches. cbn [means]. rewrite lookup_row. destruct (field c r) as [x|]; [|reflexivity]. cbn [obind2].
  pose proof (in3_among x l) as H. destruct (in3 E x l) as [[|]|]; destruct (among E x l); try reflexivity; intuition congruence.
Qed.
Lemma row_field c (r : row) : In c (map fst r) -> exists x, field c r = Some x.
Proof.
  intros F. induction r as [|[n y] r IH]; [contradiction|]. cbn in *. destruct (String.eqb_spec n c) as [Heq|Hne]; [eauto|].
  apply IH. destruct F as [F|F]; [congruence|assumption].
Qed.
Lemma in_ok D t c l : Forall (fun r => In c (map fst r)) (D t) -> filter_ok E D t (Some (BIn c l)).
Proof.
  intros F r Hr. rewrite Forall_forall in F. destruct (row_field c r (F r Hr)) as (x & Hx).
  cbn [means]. rewrite lookup_row, Hx. cbn [obind2]. eauto.
Qed.
End Columns.

