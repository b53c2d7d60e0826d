(** Property theorems C01-C08: schema differences, type resolution, type keys. *)
From Verif Require Import Base SqlVal Adb AdbSpec AdbProofs ResolveSpec ResolveProofs.

(** ** Example schemas *)
Definition col n t := acol_simple n (Known t).
Definition pkcol n t : AColumn :=
  {| c_name := n; c_type := Known t; c_nullable := false; c_pk := true; c_auto := true;
     c_unique := false; c_default := None; c_ref := None |}.
Definition ex_old : ADB :=
  {| a_tables := [("blog", {| t_name := "blog"; t_cols := [pkcol "id" TBigInt; col "name" TText] |});
                  ("post", {| t_name := "post"; t_cols := [pkcol "id" TInt; col "title" TText; col "likes" TInt] |})];
     a_types := [] |}.
Definition ex_new : ADB :=
  {| a_tables := [("post", {| t_name := "post";
                     t_cols := [col "body" TText; pkcol "id" TInt;
                                {| c_name := "title"; c_type := KnownId (TyId TText); c_nullable := true; c_pk := false;
                                   c_auto := false; c_unique := true; c_default := Some (VText "x"); c_ref := None |}] |});
                  ("tag", {| t_name := "tag";
                     t_cols := [pkcol "tag" TText;
                                with_ref (col "p" TInt) (Some (RefLiteral {| rl_table := "post"; rl_column := "id" |}))] |})];
     a_types := [] |}.
Ltac wf_tac :=
  split; [repeat constructor|];
  intros n t H; cbn in H; repeat (destruct H as [[= <- <-]|H]);
    [(split; [reflexivity|]; split; [repeat constructor; cbn; intuition discriminate|];
      let c := fresh "c" in let v := fresh "v" in let H := fresh "H" in let Hv := fresh "Hv" in
      intros c v H Hv; cbn in H; intros (r & Hr & _);
      repeat (destruct H as [<-|H]; [cbn in Hv; congruence|]); destruct H)..|destruct H].
Example ex_old_wf : wf_schema ex_old.
Proof. wf_tac. Qed.
Example ex_new_wf : wf_schema ex_new.
Proof. wf_tac. Qed.

(** ** C01 *)
Theorem C01_diff_reaches_target : forall old new, wf_schema old -> wf_schema new ->
  exists ops, diff_out old new = Ok ops /\ same_schema (transform_all old ops) new.
Proof.
  intros old new Wo Wn. exists (d_all old new). split; [apply diff_eq|]. exact (proj1 (diff_reaches old new Wo Wn)).
Qed.
Print Assumptions C01_diff_reaches_target.

(** The difference never panics, whatever the two schemas. *)
Theorem C01_diff_total : forall old new, exists ops, diff_out old new = Ok ops.
Proof. intros old new. exists (d_all old new). apply diff_eq. Qed.
Print Assumptions C01_diff_total.

(** The result is well-formed again, so differences can be chained. *)
Theorem C01_diff_result_wf : forall old new ops, wf_schema old -> wf_schema new -> diff_out old new = Ok ops ->
  wf_schema (transform_all old ops) /\ a_types (transform_all old ops) = a_types old.
Proof.
  intros old new ops Wo Wn H. rewrite diff_eq in H. injection H as <-. exact (proj2 (diff_reaches old new Wo Wn)).
Qed.
Print Assumptions C01_diff_result_wf.

(** The kept columns stay in their old order; new columns follow in name order. *)
Theorem C01_diff_column_order : forall old new, wf_table old -> wf_table new ->
  exists ops added, diff_table old new = Ok ops
    /\ map c_name (t_cols (fold_left (fun t op => op_on_table op t) ops old))
       = filter (fun x => kmem x (map c_name (t_cols new))) (map c_name (t_cols old)) ++ added
    /\ StronglySorted klt added
    /\ forall x, In x added <-> In x (map c_name (t_cols new)) /\ ~ In x (map c_name (t_cols old)).
Proof.
  intros old new Wo Wn. eexists; eexists. split; [apply diff_table_eq|]. split; [apply diff_table_names|].
  split; [apply filter_sorted, set_of_list_sorted|]. intros x. rewrite sdiff_In, !set_of_list_In. reflexivity.
Qed.
Print Assumptions C01_diff_column_order.

Example C01_example : exists ops, diff_out ex_old ex_new = Ok ops /\ length ops = 7
  /\ get_table (transform_all ex_old ops) "blog" = None
  /\ option_map (fun t => map c_name (t_cols t)) (get_table (transform_all ex_old ops) "post") = Some ["id"; "title"; "body"].
Proof. eexists. split; [vm_compute; reflexivity|]. repeat split. Qed.

(** ** C02 *)
Theorem C02_diff_empty_iff_same : forall old new, wf_schema old -> wf_schema new ->
  diff_out old new = Ok [] <-> same_schema old new.
Proof.
  intros old new Wo Wn. rewrite diff_eq, <- (diff_empty_iff old new Wo Wn). split; congruence.
Qed.
Print Assumptions C02_diff_empty_iff_same.
Example C02_example : ~ same_schema ex_old ex_new /\ same_schema ex_old ex_old.
Proof.
  split.
  - intros H. apply C02_diff_empty_iff_same in H; [|apply ex_old_wf|apply ex_new_wf]. vm_compute in H. discriminate.
  - apply C02_diff_empty_iff_same; [apply ex_old_wf..|]. vm_compute. reflexivity.
Qed.
(** Outside the well-formed schemas: a column whose default is a NaN differs from
    itself, so an identical rebuild produces a migration. *)
Theorem C02_nan_default_refuted : exists d, msorted (a_tables d) /\ exists op, diff_out d d = Ok [op].
Proof.
  exists {| a_tables := [("t", {| t_name := "t"; t_cols :=
     [{| c_name := "x"; c_type := Known TReal; c_nullable := false; c_pk := true; c_auto := false; c_unique := false;
         c_default := Some (VReal 9221120237041090560%Z); c_ref := None |}] |})]; a_types := [] |}.
  split; [repeat constructor|]. eexists. vm_compute. reflexivity.
Qed.
Print Assumptions C02_nan_default_refuted.

(** ** C03 *)
Theorem C03_ops_ordered_and_exact : forall old new ops, wf_schema old -> wf_schema new ->
  diff_out old new = Ok ops ->
  StronglySorted op_before ops /\ NoDup ops /\ forall op, In op ops <-> op_justified old new op.
Proof.
  intros old new ops Wo Wn H. rewrite diff_eq in H. injection H as <-.
  exact (conj (diff_sorted old new Wo Wn) (conj (diff_nodup old new Wo Wn) (diff_In old new Wo Wn))).
Qed.
Print Assumptions C03_ops_ordered_and_exact.
Example C03_example : exists ops, diff_out ex_old ex_new = Ok ops /\ map op_stage ops = [0; 1; 2; 3; 3; 3; 4].
Proof. eexists. split; vm_compute; reflexivity. Qed.

(** ** C04 *)
Theorem C04_down_undoes_up : forall old new, wf_schema old -> wf_schema new ->
  exists up down, diff_out old new = Ok up /\ diff_out new old = Ok down
    /\ same_schema (transform_all (transform_all old up) down) old.
Proof.
  intros old new Wo Wn. exists (d_all old new), (d_all new old).
  exact (conj (diff_eq old new) (conj (diff_eq new old) (diff_down old new Wo Wn))).
Qed.
Print Assumptions C04_down_undoes_up.

(** Stated for executions: the down operations lead back from any schema the same
    as [new], not only from the one the up operations produced. *)
Theorem C04_down_from_any_equal : forall old new cur down, wf_schema old -> wf_schema new -> wf_schema cur ->
  same_schema cur new -> diff_out new old = Ok down -> same_schema (transform_all cur down) old.
Proof.
  intros old new cur down Wo Wn Wc S H. rewrite diff_eq in H. injection H as <-.
  eapply same_schema_trans; [|exact (proj1 (diff_reaches new old Wn Wo))].
  apply transform_all_same; [apply diff_wf_ops; assumption|assumption..].
Qed.
Print Assumptions C04_down_from_any_equal.
Example C04_example : exists up down, diff_out ex_old ex_new = Ok up /\ diff_out ex_new ex_old = Ok down /\
  up <> [] /\ transform_all ex_old up <> ex_old /\ option_map (fun t => map c_name (t_cols t))
    (get_table (transform_all (transform_all ex_old up) down) "post") = Some ["id"; "title"; "likes"].
Proof. do 2 eexists. split; [vm_compute; reflexivity|]. split; [vm_compute; reflexivity|]. repeat split; discriminate. Qed.

(** ** C05 *)
(** The loop stops within [resolve_bound d] passes, for every schema whatsoever. *)
Theorem C05_resolution_terminates : forall d fuel, resolve_bound d <= fuel ->
  resolve_types_fuel fuel d = Some (resolve_types d).
Proof. exact resolve_terminates. Qed.
Print Assumptions C05_resolution_terminates.

Theorem C05_resolution_sound_complete : forall d, msorted (a_tables d) -> msorted (a_types d) -> resolvable_shape d ->
  exists d' res, resolve_types d = Ok (d', res) /\ schema_resolved d d' /\
    ((res = Ok tt /\ all_derivable d) \/
     (exists n t c k, In (n, t) (a_tables d) /\ In c (t_cols t) /\ c_type c = Deferred k /\ (forall i, ~ derives d k i)
        /\ res = Err (CannotResolveType (typekey_display k)))).
Proof.
  intros d St Sx Sh. apply shape_iff in Sh. destruct (resolve_result d St Sx Sh) as (d' & E & R).
  exists d', (verify_types d'). exact (conj E (conj R (verify_result d d' R))).
Qed.
Print Assumptions C05_resolution_sound_complete.

(** After success no column is left unresolved. *)
Theorem C05_success_means_resolved : forall d d', msorted (a_tables d) -> msorted (a_types d) -> resolvable_shape d ->
  resolve_types d = Ok (d', Ok tt) -> forall n t c, In (n, t) (a_tables d') -> In c (t_cols t) -> exists i, typeid c = Ok i.
Proof. exact resolve_success. Qed.
Print Assumptions C05_success_means_resolved.

(** The only schemas on which resolution crashes are those with a table that has
    no primary key (and is no many-to-many table) or a reference to a custom type. *)
Theorem C05_crash_iff_malformed : forall d, msorted (a_tables d) -> msorted (a_types d) ->
  resolve_types d = Panic <-> ~ resolvable_shape d.
Proof. exact resolve_panic_iff. Qed.
Print Assumptions C05_crash_iff_malformed.
Theorem C05_no_pk_crash_refuted : exists d, msorted (a_tables d) /\ msorted (a_types d) /\ resolve_types d = Panic.
Proof.
  exists {| a_tables := [("t", {| t_name := "t"; t_cols := [col "x" TInt] |})]; a_types := [] |}.
  split; [repeat constructor|]. split; [constructor|]. vm_compute. reflexivity.
Qed.
Print Assumptions C05_no_pk_crash_refuted.

(** Example: a chain of keys through a table's key and a custom type; a mutually
    recursive pair is reported. *)
Definition ex_chain : ADB :=
  {| a_tables := [("blog", {| t_name := "blog"; t_cols := [with_type (pkcol "id" TInt) (Deferred (CustomType "BlogId"))] |});
                  ("post", {| t_name := "post"; t_cols := [pkcol "id" TInt;
                      with_ref (with_type (col "blog" TInt) (Deferred (PK "Blog"))) (Some (RefDeferred (Deferred (PK "Blog"))));
                      with_type (col "meta" TInt) (Deferred (CustomType "HashMap<String, Foo>"))] |})];
     a_types := [(PK "Blog", Deferred (PK "blog")); (CustomType "BlogId", Known TBigInt)] |}.
Example ex_chain_sorted : msorted (a_tables ex_chain) /\ msorted (a_types ex_chain).
Proof. split; repeat constructor. Qed.
Example ex_chain_shape : resolvable_shape ex_chain.
Proof.
  destruct (resolve_panic_iff ex_chain) as [_ H]; [apply ex_chain_sorted..|].
  split.
  - intros n t [[= <- <-]|[[= <- <-]|[]]]; left; eexists; apply table_pk_iff; reflexivity.
  - intros n t c ty [[= <- <-]|[[= <- <-]|[]]] Hc R; cbn in Hc.
    + destruct Hc as [<-|[]]. discriminate.
    + destruct Hc as [<-|[<-|[<-|[]]]]; try discriminate. injection R as <-.
      exists (PK "Blog"), "blog". split; [reflexivity|]. left. left. reflexivity.
Qed.
Example C05_example : exists d', resolve_types ex_chain = Ok (d', Ok tt) /\
  map (fun c => c_type c) (flat_map t_cols (mvals (a_tables d')))
  = [KnownId (TyId TBigInt); Known TInt; KnownId (TyId TBigInt); KnownId (TyId TJson)].
Proof. eexists. split; vm_compute; reflexivity. Qed.
Example C05_example_cycle :
  let d := {| a_tables := [("a", {| t_name := "a"; t_cols := [with_type (pkcol "id" TInt) (Deferred (PK "b"))] |});
                           ("b", {| t_name := "b"; t_cols := [with_type (pkcol "id" TInt) (Deferred (PK "a"))] |})];
              a_types := [] |} in
  resolve_types d = Ok (d, Err (CannotResolveType "PK(b)")).
Proof. vm_compute. reflexivity. Qed.

(** ** C06 *)
Theorem C06_only_unresolved_change : forall d d' res, msorted (a_tables d) -> msorted (a_types d) ->
  resolve_types d = Ok (d', res) -> schema_resolved d d'.
Proof. exact resolve_frame. Qed.
Print Assumptions C06_only_unresolved_change.

Theorem C06_idempotent : forall d d' d'' res res', msorted (a_tables d) -> msorted (a_types d) ->
  resolve_types d = Ok (d', res) -> resolve_types d' = Ok (d'', res') ->
  column_types d'' = column_types d' /\ a_types d'' = a_types d'.
Proof. exact resolve_idempotent. Qed.
Print Assumptions C06_idempotent.
Example C06_example : exists d' d'', resolve_types ex_chain = Ok (d', Ok tt) /\ resolve_types d' = Ok (d'', Ok tt)
  /\ column_types d' <> column_types ex_chain.
Proof. do 2 eexists. split; [vm_compute; reflexivity|]. split; [vm_compute; reflexivity|]. discriminate. Qed.

(** ** C07 *)
(** For a column with a deferred reference: if the table the key means has a
    primary key, the reference becomes that table and key column; literal
    references are untouched.  Columns correspond by position. *)
Theorem C07_references : forall d d' res n t i c, msorted (a_tables d) -> msorted (a_types d) ->
  resolve_types d = Ok (d', res) -> In (n, t) (a_tables d) -> nth_error (t_cols t) i = Some c ->
  exists t' c', get_table d' n = Some t' /\ nth_error (t_cols t') i = Some c' /\ c_name c' = c_name c /\
    (forall l, c_ref c = Some (RefLiteral l) -> c_ref c' = c_ref c) /\
    (c_ref c = None -> c_ref c' = None) /\
    (forall k target u p, c_ref c = Some (RefDeferred (Deferred k)) -> ref_table d k target ->
       In (target, u) (a_tables d) -> primary_key u p ->
       c_ref c' = Some (RefLiteral {| rl_table := target; rl_column := c_name p |})).
Proof. exact resolve_references. Qed.
Print Assumptions C07_references.
Example C07_example : exists d', resolve_types ex_chain = Ok (d', Ok tt) /\
  map c_ref (flat_map t_cols (mvals (a_tables d')))
  = [None; None; Some (RefLiteral {| rl_table := "blog"; rl_column := "id" |}); None].
Proof. eexists. split; vm_compute; reflexivity. Qed.

(** Finding: with a custom table name, a table added after an earlier resolution
    (as the in-memory store does table by table) keeps its reference unresolved,
    although resolving everything at once resolves it. *)
Theorem C07_incremental_refuted : exists d d1 d2 d3 t,
  resolve_types d = Ok (d1, Ok tt) /\ resolve_types (replace_table d1 t) = Ok (d2, Ok tt) /\
  resolve_types (replace_table d t) = Ok (d3, Ok tt) /\
  option_map (fun t => map c_ref (t_cols t)) (get_table d2 (t_name t)) = Some [None; Some (RefDeferred (Deferred (PK "Blog")))] /\
  option_map (fun t => map c_ref (t_cols t)) (get_table d3 (t_name t))
    = Some [None; Some (RefLiteral {| rl_table := "blog"; rl_column := "id" |})].
Proof.
  exists {| a_tables := [("blog", {| t_name := "blog"; t_cols := [pkcol "id" TInt] |})];
            a_types := [(PK "Blog", Deferred (PK "blog"))] |}.
  do 3 eexists.
  exists {| t_name := "post"; t_cols := [pkcol "id" TInt;
     with_ref (with_type (col "blog" TInt) (Deferred (PK "Blog"))) (Some (RefDeferred (Deferred (PK "Blog"))))] |}.
  repeat split; vm_compute; reflexivity.
Qed.
Print Assumptions C07_incremental_refuted.

(** ** C08 *)
Theorem C08_roundtrip : forall k, utf8 (key_text k) = true -> typekey_de (typekey_ser k) = Ok k.
Proof. exact typekey_roundtrip. Qed.
Print Assumptions C08_roundtrip.
Theorem C08_injective : forall a b, typekey_ser a = typekey_ser b -> a = b.
Proof. exact typekey_ser_inj. Qed.
Print Assumptions C08_injective.
(** A total order consistent with equality; keys of models before custom types. *)
Theorem C08_total_order :
  (forall a b, typekey_cmp a b = Eq <-> a = b) /\
  (forall a b, typekey_cmp b a = CompOpp (typekey_cmp a b)) /\
  (forall a b c, typekey_cmp a b = Lt -> typekey_cmp b c = Lt -> typekey_cmp a c = Lt) /\
  (forall s t, typekey_cmp (PK s) (CustomType t) = Lt) /\
  (forall s t, typekey_cmp (PK s) (PK t) = String.compare s t) /\
  (forall s t, typekey_cmp (CustomType s) (CustomType t) = String.compare s t).
Proof.
  exact (conj typekey_cmp_eq (conj typekey_cmp_anti (conj typekey_cmp_trans
          (conj (fun _ _ => eq_refl) (conj (fun _ _ => eq_refl) (fun _ _ => eq_refl)))))).
Qed.
Print Assumptions C08_total_order.
(** Reading any string: a key only for exactly its text, otherwise an error or a crash. *)
Theorem C08_reading_partial : forall v, utf8 v = true ->
  match typekey_de v with
  | Ok k => v = typekey_ser k
  | Err e => e = SerdeJson /\ forall k, v <> typekey_ser k
  | Panic => forall k, v <> typekey_ser k
  end.
Proof. exact typekey_de_spec. Qed.
Print Assumptions C08_reading_partial.
(** Finding: text shorter than three bytes, or with a multi-byte character across
    byte 3, crashes instead of being reported. *)
Theorem C08_reading_refuted : exists v w, utf8 v = true /\ typekey_de v = Panic /\
  3 <= String.length w /\ utf8 w = true /\ typekey_de w = Panic.
Proof.
  exists "PK", (String "a" (String "b" (String (ascii_of_N 195) (String (ascii_of_N 169) "")))).
  repeat split; vm_compute; auto.
Qed.
Print Assumptions C08_reading_refuted.
Example C08_example : typekey_de (typekey_ser (CustomType "geo::Point")) = Ok (CustomType "geo::Point")
  /\ typekey_de "XX:Foo" = Err SerdeJson.
Proof. split; vm_compute; reflexivity. Qed.
