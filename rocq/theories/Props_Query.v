(** Property theorems C17-C19, C21, C22: filters, placeholders, queries and the
    statements that change rows. *)
From Coq Require Import Permutation.
From Verif Require Import Base SqlVal Sql SqlStmt Query QuerySpec Stmt StmtSpec
  LexProofs RenderProofs TokProofs ParseProofs StmtProofs StmtParse StmtSem UpsertProofs StmtMain ParamProofs.

(** ** Two example dialects, an engine and a database *)

Definition sqlite_like : dialect :=
  {| d_reserved := fun w => kmem w ["TABLE"; "GROUP"]; d_empty_in := true; d_offset_alone := false; d_negative_limit := true |}.
Definition pg_like : dialect :=
  {| d_reserved := fun w => kmem w ["TABLE"; "GROUP"; "USER"]; d_empty_in := false; d_offset_alone := true; d_negative_limit := false |}.
Definition ex_kw (w : string) : bool := kmem (upper w) ("USER" :: "TABLE" :: "GROUP" :: core_words).
Example ex_quotes_sqlite : quotes_enough ex_kw sqlite_like.
Proof.
  intros w H. unfold reserved, ex_kw, kmem in *. cbn [d_reserved sqlite_like] in H. unfold kmem in H.
  change (existsb (keqb (upper w)) ("USER" :: "TABLE" :: "GROUP" :: core_words))
    with (keqb (upper w) "USER" || (keqb (upper w) "TABLE" || (keqb (upper w) "GROUP" || existsb (keqb (upper w)) core_words))).
  change (existsb (keqb (upper w)) ["TABLE"; "GROUP"]) with (keqb (upper w) "TABLE" || (keqb (upper w) "GROUP" || false)) in H.
  destruct (existsb (keqb (upper w)) core_words), (keqb (upper w) "USER"), (keqb (upper w) "TABLE"), (keqb (upper w) "GROUP");
    reflexivity || exact H.
Qed.
Example ex_quotes_pg : quotes_enough ex_kw pg_like.
Proof.
  intros w H. unfold reserved, ex_kw, kmem in *. cbn [d_reserved pg_like] in H. unfold kmem in H.
  change (existsb (keqb (upper w)) ("USER" :: "TABLE" :: "GROUP" :: core_words))
    with (keqb (upper w) "USER" || (keqb (upper w) "TABLE" || (keqb (upper w) "GROUP" || existsb (keqb (upper w)) core_words))).
  change (existsb (keqb (upper w)) ["TABLE"; "GROUP"; "USER"])
    with (keqb (upper w) "TABLE" || (keqb (upper w) "GROUP" || (keqb (upper w) "USER" || false))) in H.
  destruct (existsb (keqb (upper w)) core_words), (keqb (upper w) "USER"), (keqb (upper w) "TABLE"), (keqb (upper w) "GROUP");
    reflexivity || exact H.
Qed.

(** Integers by value, texts for equality, everything else unknown. *)
Definition ex_cmp (a b : SqlVal) : option comparison :=
  match a, b with
  | (VInt x | VBigInt x), (VInt y | VBigInt y) => Some (x ?= y)%Z
  | VText x, VText y => Some (if String.eqb x y then Eq else Lt)
  | VBool x, VBool y => Some (if Bool.eqb x y then Eq else Lt)
  | _, _ => None
  end.
Definition ex_engine : engine :=
  {| e_cmp := ex_cmp;
     e_like := fun a b => match a, b with VText x, VText y => Some (String.eqb x y) | _, _ => None end;
     e_ord := fun a b => match ex_cmp a b with Some c => c | None => Eq end |}.
Example ex_engine_ok : engine_ok ex_engine.
Proof. split; intros; cbn; [reflexivity|now destruct v|now destruct v|now destruct v]. Qed.

(** ** C17 *)

(** For every filter whose brackets SQL does not need. *)
Theorem C17_filter_text_partial : forall d kw b e,
  quotes_enough kw d -> bracket_free Anywhere e -> supported d e -> room b (List.length (bound_values e)) ->
  exists s x, filter_sql b kw e = Ok (s, bound_values e) /\ parse_cond d s = Some x
    /\ forall E D f t, engine_ok E -> means E D f e = Some t -> struth E D (bound_values e) [f] x = Some t.
Proof. intros d kw b e K. exact (filter_correct d kw K b e). Qed.
Print Assumptions C17_filter_text_partial.

Definition ex_filter : BoolExpr :=
  BOr (BAnd (BGe "age" (EVal (VInt 18))) (BEq "name" (EVal (VText "o'; --"))))
      (BAllOf [BNot (BSubquery "boss" "user" "id" (BNe "name" (EVal VNull))); BIn "age" [VInt (-1); VInt 7]]).
Example C17_case : bracket_free Anywhere ex_filter /\ supported pg_like ex_filter
  /\ room (Pg true) (List.length (bound_values ex_filter))
  /\ filter_sql (Pg true) ex_kw ex_filter
     = Ok ("age >= 18 AND name = $1 OR NOT boss IN (SELECT id FROM ""user"" WHERE name IS NOT NULL) AND age IN (-1, 7)"%string,
           [VText "o'; --"])
  /\ means ex_engine (fun t => if String.eqb t "user" then [[("id", VInt 3); ("name", VText "x")]] else [])
       [("p", [("age", VInt 7); ("name", VText "a"); ("boss", VInt 2)])] ex_filter = Some (Some true).
Proof.
  split; [cbn; repeat split; discriminate|].
  split; [repeat split; try (vm_compute; reflexivity); intros H; discriminate H|].
  split; [cbn; lia|]. split; vm_compute; reflexivity.
Qed.

(** The claim for all filters fails where brackets are needed and not written. *)
Definition truth_differs (b : backend) (d : dialect) (e : BoolExpr) : Prop :=
  exists s x f t, filter_sql b ex_kw e = Ok (s, bound_values e) /\ parse_cond d s = Some x
    /\ means ex_engine (fun _ => []) f e = Some t
    /\ struth ex_engine (fun _ => []) (bound_values e) [f] x <> Some t.
Definition unreadable (b : backend) (d : dialect) (e : BoolExpr) : Prop :=
  exists s vs, filter_sql b ex_kw e = Ok (s, vs) /\ parse_cond d s = None.
Definition text_of (b : backend) (e : BoolExpr) : string := match filter_sql b ex_kw e with Ok (s, _) => s | _ => ""%string end.
Definition truth_of (b : backend) (d : dialect) (e : BoolExpr) (f : frame) : option tv :=
  match parse_cond d (text_of b e) with Some x => struth ex_engine (fun _ => []) (bound_values e) [f] x | None => None end.
Lemma truth_differs_by b d e f : (match filter_sql b ex_kw e with Ok (_, vs) => vs = bound_values e | _ => False end) ->
  (match parse_cond d (text_of b e) with Some _ => True | None => False end) ->
  (match means ex_engine (fun _ => []) f e with Some t => truth_of b d e f <> Some t | None => False end) -> truth_differs b d e.
Proof.
  unfold truth_of, text_of, truth_differs. intros H1 H2 H3. destruct (filter_sql b ex_kw e) as [[s vs]| |] eqn:Ef; try contradiction. subst vs.
  destruct (parse_cond d s) as [x|] eqn:Ep; [|contradiction]. destruct (means _ _ f e) as [t|] eqn:Em; [|contradiction].
  exists s, x, f, t. repeat split; assumption.
Qed.
Lemma unreadable_by b d e : (match filter_sql b ex_kw e with Ok (s, _) => match parse_cond d s with None => true | _ => false end | _ => false end) = true ->
  unreadable b d e.
Proof.
  unfold unreadable. destruct (filter_sql b ex_kw e) as [[s vs]| |]; try discriminate. destruct (parse_cond d s) eqn:Ep; [discriminate|]. eauto.
Qed.
Definition is1 (c : string) : BoolExpr := BEq c (EVal (VInt 1)).
Definition ex_row : frame := [("t", [("a", VInt 1); ("b", VInt 0); ("c", VInt 0)])].

Theorem C17_or_inside_and_refuted : exists e, supported sqlite_like e /\ no_empty_all e /\ truth_differs Sqlite sqlite_like e
  /\ truth_differs (Pg true) pg_like e.
Proof.
  exists (BAnd (BOr (is1 "a") (is1 "b")) (is1 "c")). split; [repeat split; vm_compute; reflexivity|]. split; [cbn; tauto|].
  split; (apply (truth_differs_by _ _ _ ex_row); [vm_compute; reflexivity|vm_compute; exact I|vm_compute; discriminate]).
Qed.
Theorem C17_or_inside_not_refuted : exists e, supported sqlite_like e /\ no_empty_all e /\ truth_differs Sqlite sqlite_like e
  /\ truth_differs (Pg true) pg_like e.
Proof.
  exists (BNot (BOr (is1 "b") (is1 "a"))). split; [repeat split; vm_compute; reflexivity|]. split; [cbn; tauto|].
  split; (apply (truth_differs_by _ _ _ ex_row); [vm_compute; reflexivity|vm_compute; exact I|vm_compute; discriminate]).
Qed.
Theorem C17_and_inside_not_refuted : exists e, supported sqlite_like e /\ no_empty_all e /\ truth_differs Sqlite sqlite_like e
  /\ truth_differs (Pg true) pg_like e.
Proof.
  exists (BNot (BAnd (is1 "a") (is1 "b"))). split; [repeat split; vm_compute; reflexivity|]. split; [cbn; tauto|].
  split; (apply (truth_differs_by _ _ _ ex_row); [vm_compute; reflexivity|vm_compute; exact I|vm_compute; discriminate]).
Qed.
(** A conjunction of nothing is written as nothing. *)
Theorem C17_empty_conjunction_refuted : exists e, supported sqlite_like e
  /\ unreadable Sqlite sqlite_like e /\ unreadable (Pg true) pg_like e.
Proof. exists (BAllOf []). split; [exact I|]. split; apply unreadable_by; vm_compute; reflexivity. Qed.
(** A column named by a reserved word is not quoted in a comparison. *)
Theorem C17_reserved_column_refuted : exists e, bracket_free Anywhere e
  /\ (exists c, e = is1 c /\ identifier c = true) /\ unreadable Sqlite sqlite_like e /\ unreadable (Pg true) pg_like e.
Proof.
  exists (is1 "group"). split; [exact I|]. split; [exists "group"; split; reflexivity|].
  split; apply unreadable_by; vm_compute; reflexivity.
Qed.
(** An empty list is refused by PostgreSQL. *)
Theorem C17_empty_list_refuted : exists c, bracket_free Anywhere (BIn c []) /\ bare_name pg_like c
  /\ unreadable (Pg true) pg_like (BIn c []).
Proof. exists "a". split; [exact I|]. split; [split; reflexivity|]. apply unreadable_by; vm_compute; reflexivity. Qed.
(** Nothing separates two joins. *)
Theorem C17_two_joins_refuted : exists c t c2 js a, bracket_free Anywhere (BSubqueryJoin c t c2 js a)
  /\ Forall (fun j => column_ok sqlite_like (join_col1 j) /\ column_ok sqlite_like (join_col2 j)) js
  /\ supported sqlite_like a
  /\ unreadable Sqlite sqlite_like (BSubqueryJoin c t c2 js a) /\ unreadable (Pg true) pg_like (BSubqueryJoin c t c2 js a).
Proof.
  exists "id", "item", {| col_table := Some "m"; col_name := "owner" |},
    [{| join_table := "m"; join_col1 := {| col_table := Some "m"; col_name := "has" |}; join_col2 := {| col_table := Some "item"; col_name := "id" |} |};
     {| join_table := "n"; join_col1 := {| col_table := Some "n"; col_name := "has" |}; join_col2 := {| col_table := Some "item"; col_name := "id" |} |}],
    BTrue.
  split; [exact I|]. split; [repeat constructor|]. split; [exact I|].
  split; apply unreadable_by; vm_compute; reflexivity.
Qed.

(** ** C18 *)

(** As many placeholders as values, the k-th standing for the k-th value, the
    values being those of the filter in order. *)
Theorem C18_filter_placeholders_partial : forall d kw b e,
  no_empty_all e -> supported d e -> room b (List.length (bound_values e)) ->
  exists s, filter_sql b kw e = Ok (s, bound_values e) /\ parameters_are s (List.length (bound_values e)).
Proof. intros d kw b e N S R. destruct (filter_places d kw b e N S R) as (s & Es & P & _). eauto. Qed.
Print Assumptions C18_filter_placeholders_partial.
Theorem C18_query_placeholders_partial : forall d kw b x cols,
  query_names_ok d x cols -> room b (List.length (query_values x)) ->
  (exists s, load_sql b kw cols x = Ok (s, query_values x) /\ parameters_are s (List.length (query_values x)))
  /\ (exists s, load_first_sql b kw cols x = Ok (s, query_values x) /\ parameters_are s (List.length (query_values x)))
  /\ (exists s, delete_sql b kw x = Ok (s, query_values x) /\ parameters_are s (List.length (query_values x))).
Proof.
  intros d kw b x cols Q R. split; [|split].
  - destruct (fetch_places d kw b cols x (q_limit x) Q R) as (s & Es & P & _). exists s. split; [destruct b; exact Es|assumption].
  - destruct (fetch_places d kw b cols x (Some 1%Z) Q R) as (s & Es & P & _). exists s. split; [destruct b; exact Es|assumption].
  - assert (Q' : query_names_ok d x [q_table x]).
    { destruct Q as (Ht & _ & _ & Fo & Hf). split; [assumption|]. split; [discriminate|]. split; [now constructor|tauto]. }
    destruct (delete_places d kw b x Q' R) as (s & Es & P & _). eauto.
Qed.
Print Assumptions C18_query_placeholders_partial.
Theorem C18_change_placeholders : forall kw b t pk cols,
  identifier t = true -> identifier pk = true -> cols <> [] -> Forall (fun c => identifier c = true) cols ->
  room b (S (List.length cols)) ->
  (exists s, insert_sql b kw t cols = Ok s /\ parameters_are s (List.length cols))
  /\ (exists s, update_sql b kw t pk cols = Ok s /\ parameters_are s (S (List.length cols)))
  /\ parameters_are (upsert_sql b kw t cols pk) (List.length cols).
Proof.
  intros kw b t pk cols Ht Hp NE Fc R. split; [|split].
  - destruct (insert_places kw b t cols Ht Fc) as (s & Es & P & _); [|eauto]. destruct b; cbn in *; [exact I|lia].
  - destruct (update_places kw b t pk cols Ht Hp NE Fc R) as (s & Es & P & _). eauto.
  - apply (upsert_places kw b t pk cols Ht Hp NE Fc).
Qed.
Print Assumptions C18_change_placeholders.
(** The text of a filter or query is the same whatever its values are, integers
    aside; this holds for every filter. *)
Theorem C18_text_ignores_values : forall kw b,
  (forall e e', blank e = blank e' -> omap fst (filter_sql b kw e) = omap fst (filter_sql b kw e'))
  /\ (forall cols x x', blank_query x = blank_query x' ->
      omap fst (load_sql b kw cols x) = omap fst (load_sql b kw cols x')
      /\ omap fst (load_first_sql b kw cols x) = omap fst (load_first_sql b kw cols x')
      /\ omap fst (delete_sql b kw x) = omap fst (delete_sql b kw x')).
Proof.
  intros kw b. split.
  - intros e e' H. rewrite (filter_blank kw b e), (filter_blank kw b e'). now rewrite H.
  - intros cols x x' H. split; [|split].
    + rewrite (load_blank kw b cols x), (load_blank kw b cols x'). now rewrite H.
    + rewrite (load_first_blank kw b cols x), (load_first_blank kw b cols x'). now rewrite H.
    + rewrite (delete_blank kw b x), (delete_blank kw b x'). now rewrite H.
Qed.
Print Assumptions C18_text_ignores_values.
Example C18_case : no_empty_all ex_filter /\ bound_values ex_filter = [VText "o'; --"]
  /\ parameters_are "age >= 18 AND name = $1 OR NOT boss IN (SELECT id FROM ""user"" WHERE name IS NOT NULL) AND age IN (-1, 7)" 1
  /\ blank (BEq "name" (EVal (VText "' OR 1=1"))) = blank (BEq "name" (EVal (VBlob ""))).
Proof. split; [cbn; repeat split; discriminate|]. split; [reflexivity|]. split; vm_compute; reflexivity. Qed.
(** A bare placeholder has no value. *)
Theorem C18_placeholder_without_value_refuted : exists e s vs, filter_sql Sqlite ex_kw e = Ok (s, vs)
  /\ ~ parameters_are s (List.length vs).
Proof. exists (BEq "a" EPlaceholder), "a = ?"%string, []. split; [vm_compute; reflexivity|]. vm_compute. discriminate. Qed.

(** ** C19 *)

Theorem C19_pg_numbering_partial : forall d kw checked e x cols,
  (no_empty_all e -> supported d e -> room (Pg checked) (List.length (bound_values e)) ->
   exists s, filter_sql (Pg checked) kw e = Ok (s, bound_values e) /\ dollars_are s (List.length (bound_values e)))
  /\ (query_names_ok d x cols -> room (Pg checked) (List.length (query_values x)) ->
     (exists s, load_sql (Pg checked) kw cols x = Ok (s, query_values x) /\ dollars_are s (List.length (query_values x)))
     /\ (exists s, load_first_sql (Pg checked) kw cols x = Ok (s, query_values x) /\ dollars_are s (List.length (query_values x)))
     /\ (exists s, delete_sql (Pg checked) kw x = Ok (s, query_values x) /\ dollars_are s (List.length (query_values x)))).
Proof.
  intros d kw ck e x cols. split.
  - intros N S R. destruct (filter_places d kw (Pg ck) e N S R) as (s & Es & _ & P). eauto.
  - intros Q R. split; [|split].
    + destruct (fetch_places d kw (Pg ck) cols x (q_limit x) Q R) as (s & Es & _ & P). eauto.
    + destruct (fetch_places d kw (Pg ck) cols x (Some 1%Z) Q R) as (s & Es & _ & P). eauto.
    + assert (Q' : query_names_ok d x [q_table x]).
      { destruct Q as (Ht & _ & _ & Fo & Hf). split; [assumption|]. split; [discriminate|]. split; [now constructor|tauto]. }
      destruct (delete_places d kw (Pg ck) x Q' R) as (s & Es & _ & P). eauto.
Qed.
Print Assumptions C19_pg_numbering_partial.
Theorem C19_pg_change_numbering_partial : forall d kw checked t pk cols,
  identifier t = true -> bare_name d pk -> cols <> [] -> Forall (fun c => identifier c = true) cols ->
  (room (Pg checked) (List.length cols) ->
   (exists s, insert_sql (Pg checked) kw t cols = Ok s /\ dollars_are s (List.length cols))
   /\ (exists s, insert_returning_sql (Pg checked) kw t cols pk = Ok s /\ dollars_are s (List.length cols)))
  /\ (room (Pg checked) (S (List.length cols)) ->
      exists s, update_sql (Pg checked) kw t pk cols = Ok s /\ dollars_are s (S (List.length cols))).
Proof.
  intros d kw ck t pk cols Ht Hp NE Fc. split.
  - intros R. split.
    + destruct (insert_places kw (Pg ck) t cols Ht Fc R) as (s & Es & _ & P). eauto.
    + destruct (insert_returning_places d kw ck t cols pk Ht Fc Hp R) as (s & Es & _ & P). eauto.
  - intros R. destruct (update_places kw (Pg ck) t pk cols Ht (proj1 Hp) NE Fc R) as (s & Es & _ & P). eauto.
Qed.
Print Assumptions C19_pg_change_numbering_partial.
(** Insert-or-update numbers any number of values. *)
Theorem C19_pg_upsert_numbering : forall kw checked t pk cols,
  identifier t = true -> identifier pk = true -> cols <> [] -> Forall (fun c => identifier c = true) cols ->
  dollars_are (upsert_sql (Pg checked) kw t cols pk) (List.length cols).
Proof. intros kw ck t pk cols Ht Hp NE Fc. apply (upsert_places kw (Pg ck) t pk cols Ht Hp NE Fc). Qed.
Print Assumptions C19_pg_upsert_numbering.
Definition many_values (n : nat) : BoolExpr := BIn "a" (repeat (VText "x") n).
Example C19_case : supported pg_like (many_values 100) /\ room (Pg true) (List.length (bound_values (many_values 100)))
  /\ filter_sql (Pg true) ex_kw (many_values 3) = Ok ("a IN ($1, $2, $3)"%string, [VText "x"; VText "x"; VText "x"]).
Proof. split; [split; [reflexivity|discriminate]|]. split; [vm_compute; lia|vm_compute; reflexivity]. Qed.
(** The counter is an i8: the 127th value stops a build with overflow checks,
    the 128th is numbered -128 in one without. *)
Theorem C19_more_values_refuted :
  (exists e, supported pg_like e /\ no_empty_all e /\ filter_sql (Pg true) ex_kw e = Panic)
  /\ (exists e s vs, supported pg_like e /\ no_empty_all e /\ filter_sql (Pg false) ex_kw e = Ok (s, vs)
        /\ ~ dollars_are s (List.length vs)).
Proof.
  split.
  - exists (many_values 127). split; [split; [reflexivity|discriminate]|]. split; [exact I|]. vm_compute. reflexivity.
  - set (e := many_values 128).
    assert (A : match filter_sql (Pg false) ex_kw e with
                | Ok (s, vs) => negb (Nat.eqb (List.length (filter is_place (lex s))) (List.length vs)) | _ => false end = true)
      by (vm_compute; reflexivity).
    destruct (filter_sql (Pg false) ex_kw e) as [[s vs]| |] eqn:Ef; [|discriminate A|discriminate A]. exists e, s, vs.
    split; [split; [reflexivity|intros X; discriminate X]|]. split; [exact I|]. split; [assumption|]. intros H. unfold dollars_are in H.
    apply (f_equal (@List.length tok)) in H. assert (L : forall n k, List.length (numbered k n) = n).
    { induction n; intros; cbn; [|rewrite IHn]; reflexivity. }
    rewrite L in H. rewrite H, Nat.eqb_refl in A. discriminate A.
Qed.

(** ** C21 *)

Definition ex_query : list build :=
  [BFilter (is1 "a"); BOrder "b" true; BLimit 5; BFilter (BGe "a" (EVal (VInt 1))); BOrder "a" false; BOffset 1; BLimit 1].
(** load: the rows matching the last filter given, sorted by all orders given,
    after skipping the last offset given, at most the last limit given.  The
    possible results of the statement are exactly the lists so described. *)
Theorem C21_load_partial : forall d kw b t l cols,
  quotes_enough kw d -> reads_sql b d ->
  let x := asked t l in
  query_names_ok d x cols -> room b (List.length (query_values x)) -> nonneg (q_limit x) -> nonneg (q_offset x) ->
  exists s sel, load_sql b kw cols (built t l) = Ok (s, query_values x) /\ parse_stmt d s = Some (Select sel)
    /\ forall E D, engine_ok E -> filter_ok E D t (q_filter x) -> fits b x (q_limit x) D ->
       forall out, select_returns d E D (query_values x) sel out <-> returns E D x (q_limit x) cols out.
Proof.
  intros d kw b t l cols K RS x Q R Hl Ho. rewrite built_asked. fold x.
  destruct (fetch_correct d kw K b cols x (q_limit x) Q R RS Hl Ho) as (s & sel & Es & Ep & M).
  exists s, sel. split; [destruct b; exact Es|]. split; assumption.
Qed.
Print Assumptions C21_load_partial.
(** load_first: the first of them, whatever the limit. *)
Theorem C21_load_first_partial : forall d kw b t l cols,
  quotes_enough kw d -> reads_sql b d ->
  let x := asked t l in
  query_names_ok d x cols -> room b (List.length (query_values x)) -> nonneg (q_offset x) ->
  exists s sel, load_first_sql b kw cols (built t l) = Ok (s, query_values x) /\ parse_stmt d s = Some (Select sel)
    /\ forall E D, engine_ok E -> filter_ok E D t (q_filter x) ->
       forall out, select_returns d E D (query_values x) sel out <-> returns E D x (Some 1%Z) cols out.
Proof.
  intros d kw b t l cols K RS x Q R Ho. rewrite built_asked. fold x.
  destruct (fetch_correct d kw K b cols x (Some 1%Z) Q R RS) as (s & sel & Es & Ep & M); [cbn; lia|assumption|].
  exists s, sel. split; [destruct b; exact Es|]. split; [assumption|]. intros E D KE F. apply M; [assumption|assumption|].
  destruct b; [discriminate|exact I].
Qed.
Print Assumptions C21_load_first_partial.
(** delete: exactly the rows matching the last filter given. *)
Theorem C21_delete_partial : forall d kw b t l,
  quotes_enough kw d ->
  let x := asked t l in
  query_names_ok d x [t] -> room b (List.length (query_values x)) ->
  exists s st, delete_sql b kw (built t l) = Ok (s, query_values x) /\ parse_stmt d s = Some st
    /\ forall E D fill, engine_ok E -> filter_ok E D t (q_filter x) ->
       exec E fill D (query_values x) st
       = Some (with_table D t (filter (fun r => negb (row_matches E D t (q_filter x) r)) (D t)), None).
Proof. intros d kw b t l K x Q R. rewrite built_asked. fold x. exact (delete_correct d kw K b x Q R). Qed.
Print Assumptions C21_delete_partial.

Definition ex_db : db := fun n => if String.eqb n "t"
  then [[("a", VInt 1); ("b", VInt 7)]; [("a", VInt 2); ("b", VInt 9)]; [("a", VInt 0); ("b", VInt 8)]; [("a", VInt 5); ("b", VInt 3)]] else [].
Example C21_case : query_names_ok sqlite_like (asked "t" ex_query) ["a"; "b"]
  /\ filter_ok ex_engine ex_db "t" (q_filter (asked "t" ex_query))
  /\ load_sql Sqlite ex_kw ["a"; "b"] (built "t" ex_query)
     = Ok ("SELECT a, b FROM t WHERE a >= 1 ORDER BY b DESC, a ASC LIMIT 1 OFFSET 1"%string, [])
  /\ returns ex_engine ex_db (asked "t" ex_query) (Some 1%Z) ["a"; "b"] [[VInt 1; VInt 7]].
Proof.
  split; [cbn; repeat split; try discriminate; repeat constructor; try discriminate|].
  split; [intros r H; cbn in H; destruct H as [<-|[<-|[<-|[<-|[]]]]]; eexists; reflexivity|].
  split; [reflexivity|].
  exists [[("a", VInt 2); ("b", VInt 9)]; [("a", VInt 1); ("b", VInt 7)]; [("a", VInt 5); ("b", VInt 3)]].
  split; [|split].
  - cbn. apply perm_swap.
  - repeat constructor; cbn; do 2 eexists; (split; [reflexivity|split; [reflexivity|]]); now left.
  - reflexivity.
Qed.
(** A limit of zero is not seen by load_first. *)
Theorem C21_load_first_ignores_limit_refuted : exists l s sel out,
  let x := asked "t" l in
  query_names_ok sqlite_like x ["a"] /\ nonneg (q_limit x)
  /\ load_first_sql Sqlite ex_kw ["a"] (built "t" l) = Ok (s, []) /\ parse_stmt sqlite_like s = Some (Select sel)
  /\ select_returns sqlite_like ex_engine ex_db [] sel [out]
  /\ ~ exists out', returns ex_engine ex_db x (q_limit x) ["a"] (out :: out').
Proof.
  exists [BLimit 0]. do 2 eexists. exists [VInt 1]. cbv zeta. 
  split; [cbn; repeat split; try discriminate; repeat constructor|]. split; [cbn; lia|].
  split; [reflexivity|]. split; [reflexivity|]. split.
  - exists (map (fun r => [("t", r)]) (ex_db "t")), (map (fun r => [("t", r)]) (ex_db "t")). eexists.
    split; [reflexivity|]. split; [split; [apply Permutation_refl|repeat constructor]|]. split; reflexivity.
  - intros (out' & sorted & _ & _ & H). cbn in H. discriminate.
Qed.
(** A negative limit is no limit on SQLite. *)
Theorem C21_negative_limit_refuted : exists l s sel out,
  let x := asked "t" l in
  query_names_ok sqlite_like x ["a"] /\ q_limit x = Some (-1)%Z
  /\ load_sql Sqlite ex_kw ["a"] (built "t" l) = Ok (s, []) /\ parse_stmt sqlite_like s = Some (Select sel)
  /\ select_returns sqlite_like ex_engine ex_db [] sel out
  /\ ~ returns ex_engine ex_db x (q_limit x) ["a"] out.
Proof.
  exists [BLimit (-1)]. do 2 eexists. exists [[VInt 1]; [VInt 2]; [VInt 0]; [VInt 5]]. cbv zeta. 
  split; [cbn; repeat split; try discriminate; repeat constructor|]. split; [reflexivity|].
  split; [reflexivity|]. split; [reflexivity|]. split.
  - exists (map (fun r => [("t", r)]) (ex_db "t")), (map (fun r => [("t", r)]) (ex_db "t")). eexists.
    split; [reflexivity|]. split; [split; [apply Permutation_refl|repeat constructor]|]. split; reflexivity.
  - intros (sorted & _ & _ & H). cbn in H. discriminate.
Qed.

(** ** C22 *)

Theorem C22_insert : forall d kw b t cols, quotes_enough kw d ->
  identifier t = true -> Forall (fun c => identifier c = true) cols -> room b (List.length cols) ->
  exists s st, insert_sql b kw t cols = Ok s /\ parse_stmt d s = Some st
    /\ forall E D fill vs, List.length vs = List.length cols ->
       exec E fill D vs st = Some (with_table D t (D t ++ [combine cols vs ++ fill t cols]), None).
Proof. intros d kw b t cols K. exact (insert_correct d kw K b t cols). Qed.
Print Assumptions C22_insert.
(** PostgreSQL returns the new row's key. *)
Theorem C22_insert_returning_partial : forall d kw checked t cols pk, quotes_enough kw d ->
  identifier t = true -> Forall (fun c => identifier c = true) cols -> bare_name d pk -> room (Pg checked) (List.length cols) ->
  exists s st, insert_returning_sql (Pg checked) kw t cols pk = Ok s /\ parse_stmt d s = Some st
    /\ forall E D fill vs, List.length vs = List.length cols ->
       let new := combine cols vs ++ fill t cols in
       exec E fill D vs st = Some (with_table D t (D t ++ [new]), field pk new).
Proof. intros d kw ck t cols pk K. exact (insert_returning_correct d kw K ck t cols pk). Qed.
Print Assumptions C22_insert_returning_partial.
(** update rewrites the rows with the given key and no others. *)
Theorem C22_update : forall d kw b t pk cols, quotes_enough kw d ->
  identifier t = true -> identifier pk = true -> cols <> [] -> Forall (fun c => identifier c = true) cols ->
  room b (S (List.length cols)) ->
  exists s st, update_sql b kw t pk cols = Ok s /\ parse_stmt d s = Some st
    /\ forall E D fill vs kv, engine_ok E -> List.length vs = List.length cols -> Forall (row_has (pk :: cols)) (D t) ->
       exec E fill D (update_values vs kv) st
       = Some (with_table D t (rewrite_rows (has_key E pk kv) (assign (combine cols vs)) (D t)), None).
Proof. intros d kw b t pk cols K. exact (update_correct d kw K b t pk cols). Qed.
Print Assumptions C22_update.
(** In a rewritten row the i-th column has the i-th value and every other column
    what it had. *)
Theorem C22_assignment : forall cols vs r, NoDup cols -> List.length vs = List.length cols -> row_has cols r ->
  (forall i c v, nth_error cols i = Some c -> nth_error vs i = Some v -> field c (assign (combine cols vs) r) = Some v)
  /\ (forall c, ~ In c cols -> field c (assign (combine cols vs) r) = field c r)
  /\ map fst (assign (combine cols vs) r) = map fst r.
Proof. exact assignment_correct. Qed.
Print Assumptions C22_assignment.
(** upsert inserts a new key and otherwise rewrites the row with that key. *)
Theorem C22_upsert : forall d kw b t pk cols, quotes_enough kw d -> reserved d "excluded" = false ->
  identifier t = true -> identifier pk = true -> cols <> [] -> Forall (fun c => identifier c = true) cols ->
  exists st, parse_stmt d (upsert_sql b kw t cols pk) = Some st
    /\ forall E D fill vs kv, t <> "excluded" -> List.length vs = List.length cols -> NoDup cols -> In pk cols ->
       field pk (combine cols vs) = Some kv -> Forall (row_has cols) (D t) ->
       exec E fill D vs st
       = Some (if existsb (has_key E pk kv) (D t)
               then (if Nat.ltb 1 (List.length cols)
                     then with_table D t (rewrite_rows (has_key E pk kv) (assign (combine cols vs)) (D t)) else D, None)
               else (with_table D t (D t ++ [combine cols vs ++ fill t cols]), None)).
Proof. intros d kw b t pk cols K. exact (upsert_correct d kw K b t pk cols). Qed.
Print Assumptions C22_upsert.

Example C22_case :
  insert_sql (Pg true) ex_kw "user" ["id"; "order"] = Ok "INSERT INTO ""user"" (id, ""order"") VALUES ($1, $2)"%string
  /\ update_sql Sqlite ex_kw "user" "id" ["order"; "x"] = Ok "UPDATE ""user"" SET ""order"" = ?, x = ? WHERE id = ?"%string
  /\ upsert_sql (Pg true) ex_kw "t" ["a"; "b"] "a"
     = "INSERT INTO t (a, b) VALUES ($1, $2) ON CONFLICT (a) DO UPDATE SET (a, b) = (excluded.a, excluded.b)"%string
  /\ Forall (row_has ["a"; "b"]) (ex_db "t")
  /\ rewrite_rows (has_key ex_engine "a" (VInt 2)) (assign (combine ["b"] [VNull])) (ex_db "t")
     = [[("a", VInt 1); ("b", VInt 7)]; [("a", VInt 2); ("b", VNull)]; [("a", VInt 0); ("b", VInt 8)]; [("a", VInt 5); ("b", VInt 3)]].
Proof.
  split; [vm_compute; reflexivity|]. split; [vm_compute; reflexivity|]. split; [vm_compute; reflexivity|].
  split; [|vm_compute; reflexivity]. cbn.
  repeat (constructor; [split; [constructor; [cbn; intuition discriminate|constructor; [intros []|constructor]]|intros x; cbn; tauto]|]).
  constructor.
Qed.
(** The key column after RETURNING is not quoted. *)
Theorem C22_returning_reserved_refuted : exists t cols pk s,
  identifier t = true /\ Forall (fun c => identifier c = true) cols /\ identifier pk = true
  /\ insert_returning_sql (Pg true) ex_kw t cols pk = Ok s /\ parse_stmt pg_like s = None.
Proof.
  exists "t", ["a"], "user", "INSERT INTO t (a) VALUES ($1) RETURNING user"%string. split; [reflexivity|]. split; [repeat constructor|]. split; [reflexivity|].
  split; vm_compute; reflexivity.
Qed.
