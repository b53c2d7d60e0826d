(** Property theorems C55: objects stored in a database made by migrations. *)
From Coq Require Import Permutation.
From Verif Require Import Base SqlVal Sql SqlStmt Query QuerySpec Stmt StmtSpec Adb AdbSpec AdbProofs Literal LiteralSpec Ddl DdlSpec
  Backend BackendSpec Turso Conv ConvSpec ConvProofs Codegen CodegenSpec SqliteSem MigrateSpec SqliteData DataCalls StoredSpec
  RenderProofs StoredRel StoredProofs StoredMain StoredLoad StoredDeploy
  FsSpec FsStore FsProofs Store StoreSpec Chain ChainSpec Deploy DeploySpec
  Props_Schema Props_Query Props_Filter Props_TursoScript Props_Migrations Props_Migrate Props_Deploy Props_Models.

(** ** One call *)
(** The rows the call asks for have a key twice or a reference without its row: then it is
    refused, and only then.  Otherwise the database keeps exactly those rows. *)
Theorem C55_call : forall json_text kw dl conv veq read strict E fresh d D db c,
  stores kw dl conv veq read strict E -> usable d -> keeps json_text E conv strict d D db ->
  numbers_fit json_text fresh d db -> call_fits json_text E dl d D c ->
  exists b D', mget (call_table c) db = Some b /\ asks json_text E d (fresh b) c D D'
  /\ ((exists db', data_call kw dl conv veq read E fresh db c = Ok db' /\ keeps json_text E conv strict d D' db'
         /\ (forall k, k <> call_table c -> mget k db' = mget k db))
      \/ (data_call kw dl conv veq read E fresh db c = Err (DbError 1) /\ ~ legal E d D')).
Proof.
  intros json_text kw dl conv veq read strict E fresh d D db c [sr_quotes0 sr_excluded0 sr_engine0 sr_compares0 sr_storage0] [us_wf0 us_fine0 us_keys0] KP NF CF.
  destruct (table_there json_text E conv strict dl d D db c KP CF) as (b & Hb). exists b.
  destruct (call_correct json_text E veq conv read strict fresh kw dl sr_engine0 sr_compares0 sr_storage0 sr_quotes0 sr_excluded0 d us_wf0 us_fine0 us_keys0 D db c b KP NF CF Hb)
    as (D' & A & O). exists D'. auto.
Qed.
Print Assumptions C55_call.
(** A value of a custom type stops the program before anything is sent. *)
Theorem C55_custom : forall kw dl conv veq read E fresh db c s vs,
  call_sql kw c = Ok (s, vs) -> Exists is_custom vs -> data_call kw dl conv veq read E fresh db c = Panic.
Proof.
  intros kw dl conv veq read E fresh db c s vs CL X. unfold data_call. rewrite CL. cbn [obind snd].
  assert (P : collect_all sqlite_write vs = Panic).
  { clear CL. induction X as [v vs (ty & x & ->)|v vs X IH]; [reflexivity|]. cbn [collect_all]. destruct (sqlite_write v) eqn:W; cbn [obind].
    - now rewrite IH.
    - destruct v; discriminate W.
    - reflexivity. }
  now rewrite P.
Qed.
Print Assumptions C55_custom.
Example C55_custom_case : exists s, call_sql ddl_kw (InsertOnly "t" ["a"; "b"] [VInt 1; VCustom "point" "0"]%string) = Ok (s, [VInt 1; VCustom "point" "0"]%string).
Proof. exists "INSERT INTO t (a, b) VALUES (?, ?)"%string. vm_compute. reflexivity. Qed.
(** In particular, what is legal is done and kept. *)
Theorem C55_accepted : forall json_text kw dl conv veq read strict E fresh d D db c,
  stores kw dl conv veq read strict E -> usable d -> keeps json_text E conv strict d D db ->
  numbers_fit json_text fresh d db -> call_fits json_text E dl d D c ->
  (forall z D', asks json_text E d z c D D' -> legal E d D') ->
  exists db' z D', data_call kw dl conv veq read E fresh db c = Ok db' /\ asks json_text E d z c D D' /\ keeps json_text E conv strict d D' db'.
Proof.
  intros json_text kw dl conv veq read strict E fresh d D db c S U KP NF CF L.
  destruct (C55_call json_text kw dl conv veq read strict E fresh d D db c S U KP NF CF) as (b & D' & Hb & A & [(db' & DC & K & _)|[_ N]]).
  - exists db', (fresh b), D'. auto.
  - exfalso. apply N. now apply (L (fresh b)).
Qed.
Print Assumptions C55_accepted.

(** ** Loading *)
(** Whatever the engine returns for the query, read with the kinds of the columns, is
    what the query may return for the rows kept, and all of that can be returned. *)
Theorem C55_load : forall json_text kw dl conv veq read strict E d D db t x lim cols tys,
  stores kw dl conv veq read strict E -> wf_schema d -> keeps json_text E conv strict d D db ->
  In (q_table x, t) (a_tables d) -> Forall2 (kind_is t) cols tys ->
  query_names_ok dl x cols -> nonneg lim -> nonneg (q_offset x) ->
  filter_ok E D (q_table x) (q_filter x) -> StmtSpec.fits Sqlite x lim D ->
  exists s sel, fetch_text kw unit q_next tt true cols x lim = Ok (s, query_values x) /\ parse_stmt dl s = Some (Select sel)
  /\ (forall out, select_returns dl E (shown_db db) (query_values x) sel out ->
        exists rs, collect_all (read_row json_text tys) out = Ok rs /\ returns E D x lim cols rs)
  /\ (forall rs, returns E D x lim cols rs ->
        exists out, select_returns dl E (shown_db db) (query_values x) sel out /\ collect_all (read_row json_text tys) out = Ok rs).
Proof.
  intros json_text kw dl conv veq read strict E d D db t x lim cols tys [sr_quotes0 sr_excluded0 sr_engine0 sr_compares0 sr_storage0] WF KP Ht K Q Hl Ho FO FT.
  exact (load_correct json_text E veq sr_compares0 kw dl conv strict d D db t x lim cols tys sr_engine0 sr_quotes0 WF KP Ht K Q Hl Ho FO FT).
Qed.
Print Assumptions C55_load.

(** ** Any number of calls *)
Theorem C55_history : forall json_text kw dl conv veq read strict E fresh d cs D db,
  stores kw dl conv veq read strict E -> usable d -> keeps json_text E conv strict d D db ->
  (forall i c, nth_error cs i = Some c -> let db1 := after_calls kw dl conv veq read E fresh db (firstn i cs) in
     numbers_fit json_text fresh d db1 /\ forall D1, keeps json_text E conv strict d D1 db1 -> call_fits json_text E dl d D1 c) ->
  exists D', follow json_text E d D cs D' /\ keeps json_text E conv strict d D' (after_calls kw dl conv veq read E fresh db cs).
Proof.
  intros json_text kw dl conv veq read strict E fresh d cs D db [sr_quotes0 sr_excluded0 sr_engine0 sr_compares0 sr_storage0] [us_wf0 us_fine0 us_keys0].
  exact (calls_correct json_text E veq conv read strict fresh kw dl sr_engine0 sr_compares0 sr_storage0 sr_quotes0 sr_excluded0 d us_wf0 us_fine0 us_keys0 cs D db).
Qed.
Print Assumptions C55_history.

(** ** After deploying *)
(** A database that follows the migrations made of the schemas asked for is, whenever a
    deployment succeeds, one that keeps the rows of the schema asked for last: none yet. *)
Theorem C55_deployed : forall json_text E conv M (c : Coll M) exec bk steps e,
  follows conv e c exec bk steps -> (forall n to, In (n, to) steps -> wf_schema to) ->
  forall cs plan s', migrate exec bk plan c (conn_on (commands c exec bk cs nothing_yet)) = (Val tt, s') ->
  keeps json_text E conv (strict_of e) (DeploySpec.asked steps) (fun _ => []) (dbs_rest (cn_db s')).
Proof. intros json_text E conv M c exec bk steps e. exact (deployed_keeps json_text E conv c exec bk steps e). Qed.
Print Assumptions C55_deployed.
(** And a call leaves a database as the next migrations need it. *)
Theorem C55_migrations_go_on : forall json_text kw dl conv veq read strict E fresh d D s c db',
  stores kw dl conv veq read strict E -> usable d -> database_is conv strict d s -> keeps json_text E conv strict d D (dbs_rest s) ->
  numbers_fit json_text fresh d (dbs_rest s) -> call_fits json_text E dl d D c ->
  data_call kw dl conv veq read E fresh (dbs_rest s) c = Ok db' ->
  database_is conv strict d {| dbs_rest := db'; dbs_mig := dbs_mig s |}.
Proof.
  intros json_text kw dl conv veq read strict E fresh d D s c db' S U DI KP NF CF DC.
  destruct (C55_call json_text kw dl conv veq read strict E fresh d D (dbs_rest s) c S U KP NF CF) as (b & D' & _ & _ & [(db1 & E1 & K1 & O)|[E1 _]]);
    rewrite DC in E1; [injection E1 as <-|discriminate E1].
  apply (still_is json_text E conv strict d D' s db' DI K1). exists (call_table c). split; [|exact O]. destruct CF as (t & Ht & _). now exists t.
Qed.
Print Assumptions C55_migrations_go_on.

(** ** The values of a model's fields *)
(** The value of a field is taken by the column recorded for it; [c] is that column once
    it is in the schema. *)
Theorem C55_value : forall json_text (resolve : resolver) s ts types g f c0 r (x : rust r) v c, compiles resolve s -> own_names resolve ->
  model_macro resolve s = Ok (ts, types, g) -> (forall main ms, ts = main :: ms -> In (f, c0) (combine (row_fields resolve s) (t_cols main))) ->
  spells resolve (sf_ty f) r -> single_option r -> rust_ok r x -> to_sql r x = Ok v ->
  value_ok json_text v -> (forall y, v = VReal y -> f64_finite y = true) -> (v = VNull -> f <> do_pk g) ->
  c_type c = c_type c0 -> c_nullable c = c_nullable c0 -> c_pk c = c_pk c0 ->
  column_takes json_text c v.
Proof.
  intros json_text resolve s ts types g f c0 r x v c CO ON MM IN SP SI RO TS VO FI NK T N P.
  destruct (C47_table resolve s ts types g CO MM) as (main & ms & -> & _ & _ & RE & _).
  destruct (C47_type resolve s _ types g CO ON MM) as (main' & ms' & EQ & TY). injection EQ as <- <-.
  specialize (IN main ms eq_refl).
  assert (X : CodegenSpec.recorded resolve (do_pk g) f c0 /\ (forall r, spells resolve (sf_ty f) r -> c_type c0 = KnownId (TyId (rsqltype r)))).
  { clear -RE TY IN. induction RE as [|a b l m A RE IH]; [destruct IN|]. inversion TY as [|? ? ? ? [B _] TY2]; subst. cbn in IN.
    destruct IN as [[= <- <-]|IN]; [split; assumption|now apply IH]. }
  destruct X as [[] KT]. pose proof (conv_kind r SI x v TS) as K. unfold is_compatible in K.
  exists (rsqltype r). rewrite T, (KT r SP). split; [reflexivity|].
  assert (NU : v = VNull -> c_nullable c0 = true).
  { intros ->. cbn in K. destruct r; try discriminate K. apply rec_nullable. inversion SP; subst; eauto. }
  split; [destruct (sqlval_type v) as [ty|] eqn:Ev|].
  - right. destruct (sqltype_eqb_spec (rsqltype r) ty) as [->|]; [assumption|discriminate].
  - left. destruct v; try discriminate Ev. reflexivity.
  - split; [assumption|]. split; [|split; [assumption|]].
    + intros (a & b & ->). clear -TS. induction r; cbn in TS; try discriminate TS.
      all: try (destruct w; discriminate TS).
      * destruct x; [eauto|discriminate TS].
      * destruct x; [eauto|discriminate TS].
    + intros Hv. rewrite N, P. split; [now apply NU|]. destruct (c_pk c0) eqn:Ep; [|reflexivity]. exfalso. apply (NK Hv). now apply rec_pk.
Qed.
Print Assumptions C55_value.

(** ** A case *)
(** Integers by value, texts and blobs for equality, as they are stored. *)
Definition kept (v : SqlVal) : lvalue := match sqlite_write v with Ok l => sqlite_keeps l | _ => LNull end.
Definition kept_cmp (a b : lvalue) : option comparison :=
  match a, b with
  | LInteger x, LInteger y => Some (x ?= y)%Z
  | LText x, LText y => Some (if String.eqb x y then Eq else Lt)
  | LBlob x, LBlob y => Some (if String.eqb x y then Eq else Lt)
  | _, _ => None
  end.
Definition st_engine : engine :=
  {| e_cmp := fun v w => kept_cmp (kept v) (kept w);
     e_like := fun v w => match kept v, kept w with LText x, LText y => Some (String.eqb x y) | _, _ => None end;
     e_ord := fun v w => match kept_cmp (kept v) (kept w) with Some c => c | None => Eq end |}.
Definition st_veq (a b : lvalue) : bool := match kept_cmp a b with Some Eq => true | _ => false end.
Lemma kept_bound v : kept (bound_as v) = kept v.
Proof.
  unfold bound_as, kept. destruct v; cbn; try reflexivity. destruct (f64_is_nan r) eqn:En; cbn; [reflexivity|]. now rewrite En.
Qed.
Example st_ok : forall strict, stores ddl_kw sqlite_like ex_conv st_veq ex_read strict st_engine.
Proof.
  intros strict. constructor; [apply ddl_kw_ok|reflexivity| | |apply ex_storage].
  - constructor; intros; cbn; try reflexivity. destruct (kept v); reflexivity.
  - constructor; intros; cbn; rewrite ?kept_bound; try reflexivity. unfold st_veq, equal, compare3. cbn.
    assert (K : forall l, kept (as_val l) = sqlite_keeps l) by now intros [].
    rewrite !K. destruct l as [|i|r|s|s], m as [|j|r'|s'|s']; cbn; try (split; congruence);
      repeat match goal with |- context [f64_is_nan ?r] => destruct (f64_is_nan r) end; cbn; try (split; congruence).
Qed.
Example st_usable : usable ex_new.
Proof.
  constructor; [apply ex_new_wf|apply ex_fine|]. intros n t c f H Hc (r & Er & ->). cbn in H.
  destruct H as [[= <- <-]|[[= <- <-]|[]]]; cbn in Hc; repeat (destruct Hc as [<-|Hc]; [try discriminate Er|]); try destruct Hc.
  injection Er as <-. exists {| t_name := "post"; t_cols := [col "body" TText; pkcol "id" TInt;
                                {| c_name := "title"; c_type := KnownId (TyId TText); c_nullable := true; c_pk := false;
                                   c_auto := false; c_unique := true; c_default := Some (VText "x"); c_ref := None |}] |}, (pkcol "id" TInt).
  cbn. auto 10.
Qed.
Definition st_post (id : Z) (title : SqlVal) : DataCalls.call := InsertOnly "post" ["body"; "id"; "title"] [VText "b"; VInt id; title].
Definition st_tag (tag : string) (p : Z) : DataCalls.call := InsertOrReplace "tag" ["tag"; "p"] "tag" [VText tag; VInt p].
Example st_call_fits : forall D, call_fits Some st_engine sqlite_like ex_new D (st_post 1 (VText "t")).
Proof.
  intros D. eexists. split; [left; reflexivity|]. cbn. split; [repeat constructor; cbn; intuition discriminate|]. split.
  - repeat (apply Forall2_cons || apply Forall2_nil).
    + eexists. split; [left; reflexivity|]. split; [reflexivity|]. exists TText. repeat split; try discriminate; try (now right). intros (? & ? & X). discriminate X.
    + eexists. split; [right; left; reflexivity|]. split; [reflexivity|]. exists TInt. split; [reflexivity|]. split; [now right|]. split; [cbn; lia|].
      split; [intros (? & ? & X); discriminate X|]. split; discriminate.
    + eexists. split; [right; right; left; reflexivity|]. split; [reflexivity|]. exists TText. repeat split; try discriminate; try (now right). intros (? & ? & X). discriminate X.
  - intros c [<-|[<-|[<-|[]]]]; left; cbn; auto.
Qed.
(** Deployed, the database takes a post and a tag that refers to it, refuses a second
    post with the same title, a tag of no post, and removing the post; then the tag is
    changed, removed, and the post goes. *)
Example C55_case : forall e, exists st s',
  mem_create_all (ex_backends e) mem_new ex_asked = Ok st
  /\ migrate (exec_of ex_conv ex_veq ex_read sqlite_like e) (b_name (backend_of ddl_kw bits_show e)) no_fault (mem_coll st)
       (conn_on (commands (mem_coll st) (exec_of ex_conv ex_veq ex_read sqlite_like e) (b_name (backend_of ddl_kw bits_show e)) [] nothing_yet)) = (Val tt, s')
  /\ DeploySpec.asked ex_asked = ex_new
  /\ (let run := after_calls ddl_kw sqlite_like ex_conv st_veq ex_read st_engine (fun _ => 1%Z) (dbs_rest (cn_db s')) in
      let try cs c := data_call ddl_kw sqlite_like ex_conv st_veq ex_read st_engine (fun _ => 1%Z) (run cs) c in
      let a := [st_post 1 (VText "t"); st_tag "x" 1] in
      let rows db := map (fun p => (fst p, map (map snd) (b_rows (snd p)))) db in
      rows (run a) = [("post", [[LText "b"; LInteger 1; LText "t"]]); ("tag", [[LText "x"; LInteger 1]])]%string
      /\ try a (st_post 2 (VText "t")) = Err (DbError 1)
      /\ try a (st_tag "y" 7) = Err (DbError 1)
      /\ try a (DeleteWhere "post" (BEq "id" (EVal (VInt 1)))) = Err (DbError 1)
      /\ rows (run (a ++ [st_post 2 VNull; UpdateRow "tag" "tag" (VText "x") ["p"] [VInt 2]; DeleteWhere "post" (BEq "id" (EVal (VInt 1)))]))
         = [("post", [[LText "b"; LInteger 2; LNull]]); ("tag", [[LText "x"; LInteger 2]])]%string).
Proof.
  intros e. destruct e.
  - do 2 eexists. split; [vm_compute; reflexivity|]. split; [vm_compute; reflexivity|]. split; [reflexivity|]. vm_compute. auto 10.
  - do 2 eexists. split; [vm_compute; reflexivity|]. split; [vm_compute; reflexivity|]. split; [reflexivity|]. vm_compute. auto 10.
Qed.
(** A key the database generates. *)
Definition st_auto : AColumn :=
  {| c_name := "id"; c_type := KnownId (TyId TBigInt); c_nullable := false; c_pk := true; c_auto := true; c_unique := false; c_default := None; c_ref := None |}.
Definition st_notes : ADB :=
  {| a_tables := [("note", {| t_name := "note"; t_cols := [st_auto; col "text" TText] |})]; a_types := [] |}.
Definition st_note_db (rows : list row) : edb :=
  [("note", {| b_cols := [{| k_name := "id"; k_type := ["INTEGER"]; k_notnull := true; k_pk := true; k_unique := false; k_default := None |};
                          {| k_name := "text"; k_type := ["TEXT"]; k_notnull := true; k_pk := false; k_unique := false; k_default := None |}];
               b_fks := []; b_strict := true; b_rows := rows |})]%string.
Definition st_fresh (b : etab) : Z := (Z.of_nat (List.length (b_rows b)) + 1)%Z.
Example st_notes_usable : usable st_notes.
Proof.
  constructor.
  - split; [repeat constructor|]. intros n t [[= <- <-]|[]]. split; [reflexivity|]. split; [repeat constructor; cbn; intuition discriminate|].
    intros c v [<-|[<-|[]]]; discriminate.
  - fine_tac.
  - intros n t c f [[= <- <-]|[]] [<-|[<-|[]]] (r & Er & _); discriminate Er.
Qed.
Example st_notes_kept : keeps Some st_engine ex_conv true st_notes (fun _ => []) (st_note_db []).
Proof.
  constructor.
  - repeat constructor.
  - intros n t [[= <- <-]|[]]. eexists. split; [reflexivity|]. split.
    + split; [reflexivity|]. split; [repeat constructor; cbn; intuition discriminate|]. split; [|split].
      * intros c [<-|[<-|[]]]; eexists; [split; [left; reflexivity|repeat split]|split; [right; left; reflexivity|repeat split]].
      * intros k [<-|[<-|[]]]; eexists; [split; [left; reflexivity|repeat split]|split; [right; left; reflexivity|repeat split]].
      * intros f. split; [intros []|]. intros (c & [<-|[<-|[]]] & (r & Er & _)); discriminate Er.
    + intros r [].
  - intros n. unfold st_note_db. cbn [mget]. destruct (keqb n "note") eqn:En; [cbn; constructor|reflexivity].
  - constructor.
  - intros n b H. right. unfold st_note_db in H. cbn [mget] in H. destruct (keqb n "note"); [injection H as <-; reflexivity|discriminate H].
  - constructor; [intros; now destruct i|]. intros n t c f r x _ _ _ [].
Qed.
Example C55_generated_case : let c := InsertOnly "note" ["text"] [VText "hello"] in
  numbers_fit Some st_fresh st_notes (st_note_db []) /\ call_fits Some st_engine sqlite_like st_notes (fun _ => []) c
  /\ after_calls ddl_kw sqlite_like ex_conv st_veq ex_read st_engine st_fresh (st_note_db []) [c; c]
     = st_note_db [[("text", LText "hello"); ("id", LInteger 1)]; [("text", LText "hello"); ("id", LInteger 2)]]%string.
Proof.
  split; [|split; [|vm_compute; reflexivity]].
  - intros n t b c [[= <- <-]|[]] Hb [<-|[<-|[]]] A; [|discriminate A]. exists (VBigInt (st_fresh b)). injection Hb as <-.
    split; [|reflexivity]. exists TBigInt. split; [reflexivity|]. split; [now right|]. split; [cbn; lia|]. split; [intros (? & ? & X); discriminate X|]. split; discriminate.
  - eexists. split; [left; reflexivity|]. split; [repeat constructor; cbn; tauto|]. split.
    + repeat constructor. eexists. split; [right; left; reflexivity|]. split; [reflexivity|]. exists TText. repeat split; try discriminate; try (now right). intros (? & ? & X). discriminate X.
    + intros c [<-|[<-|[]]]; [right; split; reflexivity|left; left; reflexivity].
Qed.
