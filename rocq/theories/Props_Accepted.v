(** Property C64: new objects that can be stored are stored. *)
From Verif Require Import Base SqlVal Adb AdbSpec AdbProofs Conv ConvSpec ConvProofs Sql SqlStmt Query QuerySpec Stmt StmtSpec Literal LiteralSpec Ddl DdlSpec
  SqliteSem SqliteData Backend BackendSpec Turso MigrateSpec DataCalls StoredSpec StoredProofs Conn ConnProofs Many ManyProofs Codegen CodegenSpec CodegenProofs
  Obj ObjSpec ObjProofs
  Props_Query Props_Models Props_Objects Props_Schema Props_TursoScript Props_Migrations Props_Migrate Props_Stored Saved SavedSpec SavedProofs
  Props_Saved Props_TursoSaved AcceptedSpec AcceptedProofs.

(** An object of a model with keys of its own, whose key no stored object has: the save
    succeeds exactly when each field has a value to be stored, no stored object has its
    value for a unique field, and what it refers to is stored. *)
Theorem C64_own_key : forall U X json_text resolve sem valid init s g kw dl conv veq read strict E fresh d t D db (o : @object U (many X)),
  deployed json_text resolve sem s g kw dl conv veq read strict E d t ->
  keeps json_text E conv strict d D db -> numbers_fit json_text fresh d db -> object_fits json_text resolve sem valid init s g d t o ->
  do_auto g = false -> nothing_pending resolve s o -> (forall k, CodegenSpec.stores sem o (do_pk g) k -> ~ row_exists E g D k) ->
  ((exists o' db', save_on (sqlite_methods json_text kw dl conv veq read E fresh) sem valid init g o db = (Ok tt, o', db'))
   <-> has_values resolve sem s g o /\ unclashing resolve sem s g E t D o /\ parents_there resolve sem s g E t D o).
Proof.
  intros U X json_text resolve sem valid init s g kw dl conv veq read strict E fresh d t D db o DP KP NF OF Ha NP NR.
  exact (own_accepted json_text resolve sem valid init s g kw dl conv veq read strict E fresh d t DP D db o Ha NP KP NF OF NR).
Qed.
Print Assumptions C64_own_key.

(** An object whose key is left to the database: it is saved if no stored object has its
    value for a unique field, what it refers to is stored, and the number the engine
    gives it is no other's. *)
Theorem C64_new_number : forall U X json_text resolve sem valid init s g kw dl conv veq read strict E fresh d t D db (o : @object U (many X)),
  deployed json_text resolve sem s g kw dl conv veq read strict E d t ->
  keeps json_text E conv strict d D db -> numbers_fit json_text fresh d db -> object_fits json_text resolve sem valid init s g d t o ->
  unnumbered sem g valid o -> nothing_pending resolve s o -> number_free g E fresh D db -> key_refers_not g t ->
  has_values resolve sem s g o -> unclashing resolve sem s g E t D o -> parents_there resolve sem s g E t D o ->
  exists o' db', save_on (sqlite_methods json_text kw dl conv veq read E fresh) sem valid init g o db = (Ok tt, o', db').
Proof.
  intros U X json_text resolve sem valid init s g kw dl conv veq read strict E fresh d t D db o DP KP NF OF UN NP FR KR HV UC PT.
  exact (auto_accepted json_text resolve sem valid init s g kw dl conv veq read strict E fresh d t DP o D db UN NP KP NF OF FR KR HV UC PT).
Qed.
Print Assumptions C64_new_number.

(** And it is saved only then: the object as it is after the save, its new key included,
    has no value of a stored object in a unique field and refers to nothing that is missing. *)
Theorem C64_no_other : forall U X json_text resolve sem valid init s g kw dl conv veq read strict E fresh d t D db (o o' : @object U (many X)) db',
  deployed json_text resolve sem s g kw dl conv veq read strict E d t ->
  keeps json_text E conv strict d D db -> numbers_fit json_text fresh d db -> object_fits json_text resolve sem valid init s g d t o ->
  unnumbered sem g valid o -> nothing_pending resolve s o ->
  save_on (sqlite_methods json_text kw dl conv veq read E fresh) sem valid init g o db = (Ok tt, o', db') ->
  has_values resolve sem s g o /\ unclashing resolve sem s g E t D o' /\ parents_there resolve sem s g E t D o'.
Proof.
  intros U X json_text resolve sem valid init s g kw dl conv veq read strict E fresh d t D db o o' db' DP KP NF OF UN NP H.
  exact (auto_needed json_text resolve sem valid init s g kw dl conv veq read strict E fresh d t DP o o' D db db' UN NP KP NF OF H).
Qed.
Print Assumptions C64_no_other.

(** Objects that are to be related to others: they are saved too, with their relations, if
    those others are stored. *)
Theorem C64_own_key_related : forall U X json_text resolve sem valid init s g kw dl conv veq read strict E fresh d t D db (o : @object U (many X)),
  deployed json_text resolve sem s g kw dl conv veq read strict E d t ->
  keeps json_text E conv strict d D db -> numbers_fit json_text fresh d db -> object_fits json_text resolve sem valid init s g d t o ->
  do_auto g = false -> relations_plain resolve s g d -> (forall k, CodegenSpec.stores sem o (do_pk g) k -> ~ row_exists E g D k) ->
  has_values resolve sem s g o -> unclashing resolve sem s g E t D o -> parents_there resolve sem s g E t D o -> partners_there resolve s g E d D o ->
  exists o' db', save_on (sqlite_methods json_text kw dl conv veq read E fresh) sem valid init g o db = (Ok tt, o', db').
Proof.
  intros U X json_text resolve sem valid init s g kw dl conv veq read strict E fresh d t D db o DP KP NF OF Ha RP NR HV UC PA PT.
  exact (own_related json_text resolve sem valid init s g kw dl conv veq read strict E fresh d t DP D db o Ha RP KP NF OF NR HV UC PA PT).
Qed.
Print Assumptions C64_own_key_related.
Theorem C64_new_number_related : forall U X json_text resolve sem valid init s g kw dl conv veq read strict E fresh d t D db (o : @object U (many X)),
  deployed json_text resolve sem s g kw dl conv veq read strict E d t ->
  keeps json_text E conv strict d D db -> numbers_fit json_text fresh d db -> object_fits json_text resolve sem valid init s g d t o ->
  unnumbered sem g valid o -> relations_plain resolve s g d -> number_free g E fresh D db -> key_refers_not g t ->
  has_values resolve sem s g o -> unclashing resolve sem s g E t D o -> parents_there resolve sem s g E t D o -> partners_there resolve s g E d D o ->
  exists o' db', save_on (sqlite_methods json_text kw dl conv veq read E fresh) sem valid init g o db = (Ok tt, o', db').
Proof.
  intros U X json_text resolve sem valid init s g kw dl conv veq read strict E fresh d t D db o DP KP NF OF UN RP FR KR HV UC PA PT.
  exact (auto_related json_text resolve sem valid init s g kw dl conv veq read strict E fresh d t DP D db o UN RP KP NF OF FR KR HV UC PA PT).
Qed.
Print Assumptions C64_new_number_related.

(** ** Posts, whose keys the database makes up *)
(** One post is stored, and the blog it belongs to. *)
Definition ac_first : Sql.row := [("title", VText "first"); ("type", VNull); ("blog", VBigInt 3); ("id", VBigInt 1)].
Definition ac_rows : Sql.db := fun n => if String.eqb n "Blog" then [[("id", VBigInt 3)]] else if String.eqb n "posts" then [ac_first] else [].
Definition ac_db : edb := sv_db [[("id", LInteger 3)]] [[("title", LText "first"); ("type", LNull); ("blog", LInteger 3); ("id", LInteger 1)]] [].
Example ac_keeps : keeps Some st_engine ex_conv true sv_schema ac_rows ac_db.
Proof.
  constructor.
  - repeat constructor.
  - apply realises_ok. vm_compute. reflexivity.
  - intros n. unfold ac_db, sv_db, ac_rows. cbn [mget]. destruct (keqb n "Blog"%string) eqn:E0; [apply keqb_eq in E0; subst n; cbn; repeat constructor|].
    destruct (keqb n "posts"%string) eqn:E1; [apply keqb_eq in E1; subst n; cbn; repeat constructor|].
    destruct (keqb n "posts_tags_Many"%string) eqn:E2; [apply keqb_eq in E2; subst n; cbn; repeat constructor|].
    destruct (String.eqb_spec n "Blog") as [->|]; [discriminate E0|]. destruct (String.eqb_spec n "posts") as [->|]; [discriminate E1|reflexivity].
  - intros n t H. cbn in H. destruct H as [[= <- <-]|[[= <- <-]|[[= <- <-]|[]]]]; unfold ac_rows; cbn [String.eqb Ascii.eqb Bool.eqb]; [| |constructor];
      (constructor; [|constructor]); (split; [|split]); [repeat constructor; cbn; intuition discriminate| |repeat apply Forall_cons; [..|constructor]|repeat constructor; cbn; intuition discriminate| |repeat apply Forall_cons; [..|constructor]]; cbn [fst snd].
    + intros n. split; [intros [<-|[]]; exists sv_key; cbn; auto|]. intros (c & [<-|[]] & <-); cbn; auto.
    + takes_tac sv_key TBigInt.
    + intros n. split.
      * intros [<-|[<-|[<-|[<-|[]]]]]; [exists (col "title" TText)|exists (sv_opt "type" TInt None)|exists (hd sv_key (t_cols sv_table))|exists sv_key]; cbn; auto 10.
      * intros (c & [<-|[<-|[<-|[<-|[]]]]] & <-); cbn; auto 10.
    + takes_tac (col "title" TText) TText.
    + takes_tac (sv_opt "type" TInt None) TInt.
    + takes_tac (hd sv_key (t_cols sv_table)) TBigInt.
    + takes_tac sv_key TBigInt.
  - intros n b Hb. unfold ac_db, sv_db in Hb. cbn [mget] in Hb. destruct (keqb n "Blog"%string) eqn:E1; [injection Hb as <-; right; reflexivity|].
    destruct (keqb n "posts"%string) eqn:E2; [left; apply keqb_eq in E2; subst n; exists sv_table; cbn; auto|].
    destruct (keqb n "posts_tags_Many"%string); [injection Hb as <-; right; reflexivity|discriminate Hb].
  - constructor.
    + intros n t c i j r s x y _ _ _ L Hi Hj. exfalso. assert (LL : List.length (ac_rows n) <= 1) by (unfold ac_rows; do 2 (destruct (String.eqb _ _); [cbn; lia|]); cbn; lia).
      assert (j < List.length (ac_rows n)) by (apply nth_error_Some; congruence). lia.
    + intros n t c f r x H Hc (q & Er & ->) Hr Hx. cbn in H.
      destruct H as [[= <- <-]|[[= <- <-]|[[= <- <-]|[]]]]; cbn in Hc; repeat (destruct Hc as [<-|Hc]; [try discriminate Er|]); try destruct Hc.
      injection Er as <-. cbn in Hr. destruct Hr as [<-|[]]. cbn in Hx. injection Hx as <-. right.
      exists [("id"%string, VBigInt 3)], (VBigInt 3). repeat split. now left.
Qed.
Example ac_numbers : numbers_fit Some st_fresh sv_schema ac_db.
Proof.
  intros n t b c H Hb Hc Ha. exists (VBigInt (st_fresh b)). cbn in H.
  destruct H as [[= <- <-]|[[= <- <-]|[[= <- <-]|[]]]]; vm_compute in Hb; injection Hb as <-; cbn in Hc;
    repeat (destruct Hc as [<-|Hc]; [try discriminate Ha|]); try destruct Hc;
    (split; [|reflexivity]; exists TBigInt; split; [reflexivity|]; split; [now right|]; split; [cbn; lia|]; split; [intros (? & ? & Y); discriminate Y|]; split; discriminate).
Qed.
(** A second post of the blog, without tags. *)
Definition ac_post (blog : Z) := sv_post None "second" (Some blog) many_new.
Example ac_fits : forall blog, blog = 3%Z \/ blog = 4%Z ->
  object_fits Some table_resolve post_sem rv_valid rv_init post post_code sv_schema sv_table (ac_post blog).
Proof.
  intros blog Hb. destruct (sv_fits None (or_introl eq_refl)) as [F1 F2 F3]. constructor.
  - intros f v Hf Ho (u & Hu & Ht). vm_compute in Hf.
    destruct Hf as [<-|[<-|[<-|[<-|[]]]]].
    + vm_compute in Hu. injection Hu as <-. vm_compute in Ht. injection Ht as <-. takes_tac (col "title" TText) TText.
    + exfalso. destruct (Ho eq_refl eq_refl) as (_ & u2 & Hu2 & Hv2). vm_compute in Hu2. injection Hu2 as <-. discriminate Hv2.
    + vm_compute in Hu. injection Hu as <-. vm_compute in Ht. injection Ht as <-. takes_tac (sv_opt "type" TInt None) TInt.
    + destruct Hb as [-> | ->]; vm_compute in Hu; injection Hu as <-; vm_compute in Ht; injection Ht as <-; takes_tac (hd sv_key (t_cols sv_table)) TBigInt.
  - exact F2.
  - intros f Hf. vm_compute in Hf. destruct Hf as [<-|[]]. exists many_new. split; [reflexivity|]. split; [now left|]. split; [|constructor].
    intros rt H. constructor.
Qed.
Example ac_unnumbered : forall blog, unnumbered post_sem post_code rv_valid (ac_post blog).
Proof.
  intros blog. split; [reflexivity|]. split; [eexists; split; reflexivity|].
  intros k (u & Hu & Hk). vm_compute in Hu. injection Hu as <-. vm_compute in Hk. discriminate Hk.
Qed.
Example ac_nothing : forall blog, nothing_pending table_resolve post (ac_post blog).
Proof. intros blog f Hf. vm_compute in Hf. destruct Hf as [<-|[]]. exists many_new. repeat split. Qed.
Lemma ac_value blog n x : value_of table_resolve post_sem post (ac_post blog) n x -> n <> "id"%string /\ (n = "blog"%string -> x = VBigInt blog).
Proof.
  intros (f & Hf & <- & (u & Hu & Hx)). vm_compute in Hf. destruct Hf as [<-|[<-|[<-|[<-|[]]]]]; vm_compute in Hu; injection Hu as <-; cbn in Hx;
    try discriminate Hx; (split; [discriminate|]); try discriminate. intros _. now injection Hx as <-.
Qed.
(** The blog is there: the post is stored.  Without it, the save fails. *)
Example C64_case_new : (exists o' db', sv_save (ac_post 3) ac_db = (Ok tt, o', db')) /\ ~ (exists o' db', sv_save (ac_post 4) ac_db = (Ok tt, o', db')).
Proof.
  split.
  - refine (C64_new_number _ _ _ _ _ _ _ _ _ _ _ _ _ _ _ _ _ _ _ _ _ _ sv_deployed ac_keeps ac_numbers (ac_fits 3 (or_introl eq_refl)) (ac_unnumbered 3) (ac_nothing 3) _ _ _ _ _).
    + intros b r k y Hb Hr Hy Hk. vm_compute in Hb. injection Hb as <-. destruct Hr as [<-|[]]. vm_compute in Hy. injection Hy as <-.
      destruct k; try discriminate Hk; vm_compute in Hk; try (injection Hk as ->); unfold equal, compare3; cbn; try discriminate.
      all: try (destruct b; discriminate).
    + intros c f [<-|[<-|[<-|[<-|[]]]]] (q & Er & _); try discriminate Er. discriminate.
    + intros f Hf. vm_compute in Hf. destruct Hf as [<-|[<-|[<-|[<-|[]]]]];
        [right; exists (VText "second"), (existT rust RString "second")|left; split; reflexivity
        |right; exists VNull, (existT rust (ROption (RInt I32)) None)|right; exists (VBigInt 3), (existT rust (ROption (RInt I64)) (Some 3%Z))];
        (split; reflexivity).
    + intros c r x y [<-|[<-|[<-|[<-|[]]]]] [H|H] V; try discriminate H. apply ac_value in V as [V _]. now elim V.
    + intros c f x [<-|[<-|[<-|[<-|[]]]]] (q & Er & ->) V; try discriminate Er. injection Er as <-. apply ac_value in V as [_ V]. rewrite (V eq_refl).
      right. left. exists [("id"%string, VBigInt 3)], (VBigInt 3). repeat split. now left.
  - intros (o' & db' & H). vm_compute in H. discriminate H.
Qed.

(** ** Topics, whose keys are their own *)
Definition topic : sdef :=
  {| st_ident := "Topic"; st_attrs := [];
     st_fields := [ f_plain "id" (bare "i64"); {| sf_ident := "name"; sf_ty := bare "String"; sf_attrs := [AttrUnique] |};
                    f_plain "parent" (t_gen "Option" (t_gen "ForeignKey" (bare "Topic"))) ] |}.
Definition topic_code : dbobject := match impl_dbobject table_resolve topic with Ok g => g | _ => post_code end.
Definition topic_sem (t : ty) : codec rvalue :=
  rty_codec (match t with TPath _ _ "String" _ => RString | TPath _ _ "i64" _ => RInt I64 | _ => ROption (RInt I64) end).
Definition tp_id : AColumn :=
  {| c_name := "id"; c_type := KnownId (TyId TBigInt); c_nullable := false; c_pk := true; c_auto := false; c_unique := false; c_default := None; c_ref := None |}.
Definition tp_name : AColumn :=
  {| c_name := "name"; c_type := KnownId (TyId TText); c_nullable := false; c_pk := false; c_auto := false; c_unique := true; c_default := None; c_ref := None |}.
Definition tp_parent : AColumn := sv_opt "parent" TBigInt (Some (RefLiteral {| rl_table := "Topic"; rl_column := "id" |})).
Definition tp_table : ATable := {| t_name := "Topic"; t_cols := [tp_id; tp_name; tp_parent] |}.
Definition tp_schema : ADB := {| a_tables := [("Topic", tp_table)]; a_types := [] |}.
Definition tp_db (rows : list row) : edb :=
  [("Topic", {| b_cols := [sv_col "id" "INTEGER" true true; {| k_name := "name"; k_type := ["TEXT"]; k_notnull := true; k_pk := false; k_unique := true; k_default := None |};
                           sv_col "parent" "INTEGER" false false];
                b_fks := [{| fk_col := "parent"; fk_table := "Topic"; fk_ref := "id" |}]; b_strict := true; b_rows := rows |})]%string.
Definition tp_row (id : Z) (name : string) : Sql.row := [("id", VBigInt id); ("name", VText name); ("parent", VNull)].
Definition tp_rows : Sql.db := fun n => if String.eqb n "Topic" then [tp_row 7 "coq"] else [].
Definition tp_full : edb := tp_db [[("id", LInteger 7); ("name", LText "coq"); ("parent", LNull)]]%string.
Example tp_usable : usable tp_schema.
Proof.
  constructor.
  - wf_tac.
  - fine_tac.
  - intros n t c f H Hc (r & Er & ->). cbn in H. destruct H as [[= <- <-]|[]]; cbn in Hc; repeat (destruct Hc as [<-|Hc]; [try discriminate Er|]); try destruct Hc.
    injection Er as <-. exists tp_table, tp_id. cbn. auto 10.
Qed.
Example tp_keeps : keeps Some st_engine ex_conv true tp_schema tp_rows tp_full.
Proof.
  constructor.
  - repeat constructor.
  - apply realises_ok. vm_compute. reflexivity.
  - intros n. unfold tp_full, tp_db, tp_rows. cbn [mget]. destruct (keqb n "Topic"%string) eqn:E0; [apply keqb_eq in E0; subst n; cbn; repeat constructor|].
    destruct (String.eqb_spec n "Topic") as [->|]; [discriminate E0|reflexivity].
  - intros n t [[= <- <-]|[]]. cbn. constructor; [|constructor]. split; [repeat constructor; cbn; intuition discriminate|]. split.
    + intros n. split; [intros [<-|[<-|[<-|[]]]]; [exists tp_id|exists tp_name|exists tp_parent]; cbn; auto|].
      intros (c & [<-|[<-|[<-|[]]]] & <-); cbn; auto.
    + repeat apply Forall_cons; [..|constructor]; cbn [fst snd]; [takes_tac tp_id TBigInt|takes_tac tp_name TText|takes_tac tp_parent TBigInt].
  - intros n b Hb. unfold tp_full, tp_db in Hb. cbn [mget] in Hb. destruct (keqb n "Topic"%string) eqn:E1; [left; apply keqb_eq in E1; subst n; exists tp_table; cbn; auto|discriminate Hb].
  - constructor.
    + intros n t c i j r s x y [[= <- <-]|[]] _ _ L Hi Hj. exfalso. destruct j as [|[|j]]; [lia|discriminate Hj|discriminate Hj].
    + intros n t c f r x [[= <- <-]|[]] Hc (q & Er & ->) Hr Hx. cbn in Hc. repeat (destruct Hc as [<-|Hc]; [try discriminate Er|]); try destruct Hc.
      injection Er as <-. cbn in Hr. destruct Hr as [<-|[]]. cbn in Hx. injection Hx as <-. now left.
Qed.
Example tp_numbers : numbers_fit Some st_fresh tp_schema tp_full.
Proof. intros n t b c [[= <- <-]|[]] Hb [<-|[<-|[<-|[]]]] Ha; discriminate Ha. Qed.
Lemma tp_keys v : given_fits Some tp_table "id" v -> exists z, v = VBigInt z /\ (- 2 ^ 63 <= z < 2 ^ 63)%Z.
Proof.
  intros (c & [<-|[<-|[<-|[]]]] & E1 & ty & E2 & K1 & V1 & C1 & _ & N1); try discriminate E1.
  injection E2 as <-. destruct v; cbn in K1, V1; try (destruct K1 as [K1|K1]; discriminate K1).
  - destruct (N1 eq_refl) as [X _]. discriminate X.
  - eexists. split; [reflexivity|lia].
Qed.
Example tp_deployed : deployed Some table_resolve topic_sem topic topic_code ddl_kw sqlite_like ex_conv st_veq ex_read true st_engine tp_schema tp_table.
Proof.
  constructor.
  - split.
    + cbn. repeat (constructor; [cbn; intuition discriminate|]). constructor.
    + intros pk Hk. apply (key_field_pk topic) in Hk.
      * vm_compute in Hk. inversion Hk. reflexivity.
      * cbn. repeat (constructor; [cbn; intuition discriminate|]). constructor.
  - vm_compute. reflexivity.
  - apply st_ok.
  - intros z. unfold equal, compare3. cbn. now rewrite Z.compare_refl.
  - apply tp_usable.
  - constructor; try (vm_compute; reflexivity).
    + split; [discriminate|reflexivity].
    + repeat constructor.
    + split; vm_compute; reflexivity.
    + constructor.
  - constructor.
    + now left.
    + split.
      * intros f Hf. vm_compute in Hf. destruct Hf as [<-|[<-|[<-|[]]]]; [exists tp_id|exists tp_name|exists tp_parent];
          (split; [cbn; auto|]); (constructor; [reflexivity|reflexivity|vm_compute; intuition congruence|vm_compute; intuition congruence]).
      * intros c Hc. cbn in Hc. destruct Hc as [<-|[<-|[<-|[]]]];
          [exists (nth 0 (row_fields table_resolve topic) (do_pk topic_code))|exists (nth 1 (row_fields table_resolve topic) (do_pk topic_code))
          |exists (nth 2 (row_fields table_resolve topic) (do_pk topic_code))];
          (split; [vm_compute; auto 10|]); (constructor; [reflexivity|reflexivity|vm_compute; intuition congruence|vm_compute; intuition congruence]).
    + intros f Hf. vm_compute in Hf. destruct Hf.
    + intros H. vm_compute in H. discriminate H.
    + intros c [<-|[<-|[<-|[]]]]; discriminate.
  - change (do_pkcol topic_code) with "id"%string. intros x y Hx Hy. apply tp_keys in Hx as (a & -> & _). apply tp_keys in Hy as (c & -> & _). unfold compare3. cbn.
    destruct (Z.compare_spec a c) as [Hx|Hx|Hx]; split; intros Hy; try congruence; inversion Hy; subst; lia.
Qed.
Definition tp_object (id : Z) (name : string) (parent : option Z) : @object rvalue (many Z) :=
  [ ("id", FV (existT rust (RInt I64) id)); ("name", FV (existT rust RString name)); ("parent", FV (existT rust (ROption (RInt I64)) parent)) ].
Notation tp_save := (save_on sv_M topic_sem rv_valid rv_init topic_code).
Definition small (z : Z) : Prop := (0 <= z <= 100)%Z.
Example tp_fits : forall id name parent, small id -> (forall z, parent = Some z -> small z) ->
  object_fits Some table_resolve topic_sem rv_valid rv_init topic topic_code tp_schema tp_table (tp_object id name parent).
Proof.
  unfold small. intros id name parent Hi Hp. constructor.
  - intros f v Hf Ho (u & Hu & Ht). vm_compute in Hf. destruct Hf as [<-|[<-|[<-|[]]]]; cbn in Hu; injection Hu as <-.
    + cbn in Ht. injection Ht as <-. takes_tac tp_id TBigInt.
    + cbn in Ht. injection Ht as <-. takes_tac tp_name TText.
    + destruct parent as [z|]; cbn in Ht; injection Ht as <-; [specialize (Hp z eq_refl)|]; takes_tac tp_parent TBigInt.
  - intros u H. vm_compute in H. discriminate H.
  - intros f Hf. vm_compute in Hf. destruct Hf.
Qed.
Example tp_nothing : forall id name parent, nothing_pending table_resolve topic (tp_object id name parent).
Proof. intros id name parent f Hf. vm_compute in Hf. destruct Hf. Qed.
Lemma st_same_int a b : compare3 st_engine CEq (VBigInt a) (VBigInt b) = Some true -> a = b.
Proof. unfold compare3. cbn. destruct (Z.compare_spec a b); [auto|discriminate|discriminate]. Qed.
Lemma st_same_text a b : compare3 st_engine CEq (VText a) (VText b) = Some true -> a = b.
Proof. unfold compare3. cbn. destruct (String.eqb_spec a b); [auto|discriminate]. Qed.
Lemma tp_unused id name parent k : id <> 7%Z -> CodegenSpec.stores topic_sem (tp_object id name parent) (do_pk topic_code) k -> ~ row_exists st_engine topic_code tp_rows k.
Proof.
  intros N (u & Hu & Hk) (r & Hr & Hy). change (obj_get (tp_object id name parent) (sf_ident (do_pk topic_code))) with (Some (@FV rvalue (many Z) (existT rust (RInt I64) id))) in Hu.
  injection Hu as <-. cbn in Hk. injection Hk as <-. destruct Hr as [<-|[]]. unfold has_key in Hy.
  change (field (do_pkcol topic_code) (tp_row 7 "coq")) with (Some (VBigInt 7)) in Hy. cbv iota beta in Hy.
  destruct (compare3 st_engine CEq (VBigInt 7) (VBigInt id)) as [[|]|] eqn:Q; [apply st_same_int in Q; now subst id|..]; discriminate Hy.
Qed.
Lemma tp_value id name parent n x : value_of table_resolve topic_sem topic (tp_object id name parent) n x ->
  n = "id"%string /\ x = VBigInt id \/ n = "name"%string /\ x = VText name \/ n = "parent"%string /\ x = match parent with Some z => VBigInt z | None => VNull end.
Proof.
  intros (f & Hf & <- & (u & Hu & Hx)). vm_compute in Hf. destruct Hf as [<-|[<-|[<-|[]]]]; cbn in Hu; injection Hu as <-; cbn in Hx; [left|right; left|right; right];
    (split; [reflexivity|]); try (now injection Hx as <-). destruct parent; now injection Hx as <-.
Qed.
Lemma tp_valued id name parent : has_values table_resolve topic_sem topic topic_code (tp_object id name parent).
Proof.
  intros f Hf. right. vm_compute in Hf. destruct Hf as [<-|[<-|[<-|[]]]];
    [exists (VBigInt id), (existT rust (RInt I64) id)|exists (VText name), (existT rust RString name)
    |exists (match parent with Some z => VBigInt z | None => VNull end), (existT rust (ROption (RInt I64)) parent)]; (split; [reflexivity|]); try reflexivity.
  destruct parent; reflexivity.
Qed.
(** Under a stored topic or under itself a topic is stored; one whose name is taken is
    not, nor one under a topic that is not there. *)
Example C64_case_own :
  (exists o' db', tp_save (tp_object 8 "rocq" (Some 7%Z)) tp_full = (Ok tt, o', db'))
  /\ (exists o' db', tp_save (tp_object 9 "self" (Some 9%Z)) tp_full = (Ok tt, o', db'))
  /\ ~ (exists o' db', tp_save (tp_object 8 "coq" None) tp_full = (Ok tt, o', db'))
  /\ ~ (exists o' db', tp_save (tp_object 8 "rocq" (Some 6%Z)) tp_full = (Ok tt, o', db')).
Proof.
  assert (T : forall id name parent, small id -> (forall z, parent = Some z -> small z) -> id <> 7%Z ->
    ((exists o' db', tp_save (tp_object id name parent) tp_full = (Ok tt, o', db')) <->
     has_values table_resolve topic_sem topic topic_code (tp_object id name parent)
     /\ unclashing table_resolve topic_sem topic topic_code st_engine tp_table tp_rows (tp_object id name parent)
     /\ parents_there table_resolve topic_sem topic topic_code st_engine tp_table tp_rows (tp_object id name parent))).
  { intros id name parent S1 S2 N. apply (C64_own_key _ _ _ _ _ _ _ _ _ _ _ _ _ _ _ _ _ _ _ _ _ _ tp_deployed tp_keeps tp_numbers (tp_fits id name parent S1 S2) eq_refl (tp_nothing id name parent)).
    intros k Hk. exact (tp_unused id name parent k N Hk). }
  assert (C : forall id name parent, id <> 7%Z -> String.eqb "coq" name = false ->
    unclashing table_resolve topic_sem topic topic_code st_engine tp_table tp_rows (tp_object id name parent)).
  { intros id name parent N M c r x y Hc Hk V Hr Hy Q. destruct Hr as [<-|[]].
    apply tp_value in V. destruct Hc as [<-|[<-|[<-|[]]]]; [| |destruct Hk as [Hk|Hk]; discriminate Hk];
      destruct V as [[V ->]|[[V ->]|[V ->]]]; try discriminate V; cbn in Hy; injection Hy as <-; unfold equal in Q.
    - apply st_same_int in Q. now subst id.
    - apply st_same_text in Q. subst name. now elim M. }
  assert (S7 : forall z, small z -> forall z', Some z = Some z' -> small z') by (intros z Hz z' [= <-]; exact Hz).
  split; [|split; [|split]].
  - apply T; [unfold small; lia|apply S7; unfold small; lia|discriminate|]. split; [apply tp_valued|]. split; [refine (C _ _ _ _ _); [discriminate|reflexivity]|].
    intros c f x [<-|[<-|[<-|[]]]] (q & Er & ->) V; try discriminate Er. injection Er as <-. apply tp_value in V as [[V ->]|[[V ->]|[V ->]]]; try discriminate V.
    right. left. exists (tp_row 7 "coq"), (VBigInt 7). repeat split. now left.
  - apply T; [unfold small; lia|apply S7; unfold small; lia|discriminate|]. split; [apply tp_valued|]. split; [refine (C _ _ _ _ _); [discriminate|reflexivity]|].
    intros c f x [<-|[<-|[<-|[]]]] (q & Er & ->) V; try discriminate Er. injection Er as <-. apply tp_value in V as [[V ->]|[[V ->]|[V ->]]]; try discriminate V.
    right. right. split; [reflexivity|]. exists (VBigInt 9). split; [|reflexivity].
    exists (nth 0 (row_fields table_resolve topic) (do_pk topic_code)). split; [vm_compute; auto|]. split; [reflexivity|].
    exists (existT rust (RInt I64) 9%Z). split; reflexivity.
  - rewrite T; [|unfold small; lia|discriminate|discriminate]. intros (_ & U & _).
    refine (U tp_name (tp_row 7 "coq") (VText "coq") (VText "coq") _ (or_intror eq_refl) _ (or_introl eq_refl) eq_refl eq_refl); [right; now left|].
    exists (nth 1 (row_fields table_resolve topic) (do_pk topic_code)). split; [vm_compute; auto|]. split; [reflexivity|].
    exists (existT rust RString "coq"%string). split; reflexivity.
  - rewrite T; [|unfold small; lia|apply S7; unfold small; lia|discriminate]. intros (_ & _ & P).
    destruct (P tp_parent {| fk_col := "parent"; fk_table := "Topic"; fk_ref := "id" |} (VBigInt 6)) as [X|[(p & y & Hp & Hy & Q)|(_ & y & V & Q)]].
    + right. right. now left.
    + eexists. split; reflexivity.
    + exists (nth 2 (row_fields table_resolve topic) (do_pk topic_code)). split; [vm_compute; auto|]. split; [reflexivity|].
      exists (existT rust (ROption (RInt I64)) (Some 6%Z)). split; reflexivity.
    + discriminate X.
    + destruct Hp as [<-|[]]. cbn in Hy. injection Hy as <-. apply st_same_int in Q. discriminate Q.
    + apply tp_value in V as [[V ->]|[[V ->]|[V ->]]]; try discriminate V. apply st_same_int in Q. discriminate Q.
Qed.

(** ** Posts that are to have tags *)
(** The schema as the macro records it: both columns of the relation refer to a key. *)
Definition px_ref (n : string) (ty : SqlType) (tb : string) : AColumn :=
  {| c_name := n; c_type := KnownId (TyId ty); c_nullable := false; c_pk := false; c_auto := false; c_unique := false; c_default := None;
     c_ref := Some (RefLiteral {| rl_table := tb; rl_column := "id" |}) |}.
Definition px_tag : AColumn :=
  {| c_name := "id"; c_type := KnownId (TyId TInt); c_nullable := false; c_pk := true; c_auto := false; c_unique := false; c_default := None; c_ref := None |}.
Definition px_pairs : ATable := {| t_name := "posts_tags_Many"; t_cols := [px_ref "has" TInt "Tag"; px_ref "owner" TBigInt "posts"] |}.
Definition px_schema : ADB :=
  {| a_tables := [("Blog", {| t_name := "Blog"; t_cols := [sv_key] |}); ("Tag", {| t_name := "Tag"; t_cols := [px_tag] |}); ("posts", sv_table);
                  ("posts_tags_Many", px_pairs)]; a_types := [] |}.
Definition px_db : edb :=
  [("Blog", {| b_cols := [sv_col "id" "INTEGER" true true]; b_fks := []; b_strict := true; b_rows := [[("id", LInteger 3)]] |});
   ("Tag", {| b_cols := [sv_col "id" "INTEGER" true true]; b_fks := []; b_strict := true; b_rows := [[("id", LInteger 20)]] |});
   ("posts", {| b_cols := [sv_col "blog" "INTEGER" false false; sv_col "id" "INTEGER" true true; sv_col "title" "TEXT" true false; sv_col "type" "INTEGER" false false];
                b_fks := [{| fk_col := "blog"; fk_table := "Blog"; fk_ref := "id" |}]; b_strict := true;
                b_rows := [[("title", LText "first"); ("type", LNull); ("blog", LInteger 3); ("id", LInteger 1)]] |});
   ("posts_tags_Many", {| b_cols := [sv_col "has" "INTEGER" true false; sv_col "owner" "INTEGER" true false];
                b_fks := [{| fk_col := "has"; fk_table := "Tag"; fk_ref := "id" |}; {| fk_col := "owner"; fk_table := "posts"; fk_ref := "id" |}];
                b_strict := true; b_rows := [] |})]%string.
Definition px_rows : Sql.db := fun n => if String.eqb n "Blog" then [[("id", VBigInt 3)]] else if String.eqb n "Tag" then [[("id", VInt 20)]]
  else if String.eqb n "posts" then [ac_first] else [].
Example px_usable : usable px_schema.
Proof.
  constructor.
  - wf_tac.
  - fine_tac.
  - intros n t c f H Hc (r & Er & ->). cbn in H.
    destruct H as [[= <- <-]|[[= <- <-]|[[= <- <-]|[[= <- <-]|[]]]]]; cbn in Hc; repeat (destruct Hc as [<-|Hc]; [try discriminate Er|]); try destruct Hc; injection Er as <-.
    + exists {| t_name := "Blog"; t_cols := [sv_key] |}, sv_key. cbn. auto 10.
    + exists {| t_name := "Tag"; t_cols := [px_tag] |}, px_tag. cbn. auto 10.
    + exists sv_table, sv_key. cbn. auto 10.
Qed.
Example px_keeps : keeps Some st_engine ex_conv true px_schema px_rows px_db.
Proof.
  constructor.
  - repeat constructor.
  - apply realises_ok. vm_compute. reflexivity.
  - intros n. unfold px_db, px_rows. cbn [mget]. destruct (keqb n "Blog"%string) eqn:E0; [apply keqb_eq in E0; subst n; cbn; repeat constructor|].
    destruct (keqb n "Tag"%string) eqn:E3; [apply keqb_eq in E3; subst n; cbn; repeat constructor|].
    destruct (keqb n "posts"%string) eqn:E1; [apply keqb_eq in E1; subst n; cbn; repeat constructor|].
    destruct (keqb n "posts_tags_Many"%string) eqn:E2; [apply keqb_eq in E2; subst n; cbn; repeat constructor|].
    destruct (String.eqb_spec n "Blog") as [->|]; [discriminate E0|]. destruct (String.eqb_spec n "Tag") as [->|]; [discriminate E3|].
    destruct (String.eqb_spec n "posts") as [->|]; [discriminate E1|reflexivity].
  - intros n t H. cbn in H. destruct H as [[= <- <-]|[[= <- <-]|[[= <- <-]|[[= <- <-]|[]]]]].
    + apply (kp_fit _ _ _ _ _ _ _ ac_keeps "Blog"). now left.
    + cbn. constructor; [|constructor]. split; [repeat constructor; cbn; intuition discriminate|]. split.
      * intros n. split; [intros [<-|[]]; exists px_tag; cbn; auto|]. intros (c & [<-|[]] & <-); cbn; auto.
      * constructor; [|constructor]. cbn [fst snd]. takes_tac px_tag TInt.
    + apply (kp_fit _ _ _ _ _ _ _ ac_keeps "posts"). right. now left.
    + constructor.
  - intros n b Hb. left. unfold px_db in Hb. cbn [mget] in Hb. unfold has_table.
    destruct (keqb n "Blog"%string) eqn:E1; [apply keqb_eq in E1; subst n; eexists; cbn; auto|].
    destruct (keqb n "Tag"%string) eqn:E4; [apply keqb_eq in E4; subst n; eexists; cbn; auto|].
    destruct (keqb n "posts"%string) eqn:E2; [apply keqb_eq in E2; subst n; eexists; cbn; auto|].
    destruct (keqb n "posts_tags_Many"%string) eqn:E3; [apply keqb_eq in E3; subst n; eexists; cbn; auto 10|discriminate Hb].
  - constructor.
    + intros n t c i j r s x y _ _ _ L Hi Hj. exfalso. assert (LL : List.length (px_rows n) <= 1) by (unfold px_rows; do 3 (destruct (String.eqb _ _); [cbn; lia|]); cbn; lia).
      assert (j < List.length (px_rows n)) by (apply nth_error_Some; congruence). lia.
    + intros n t c f r x H Hc (q & Er & ->) Hr Hx. cbn in H.
      destruct H as [[= <- <-]|[[= <- <-]|[[= <- <-]|[[= <- <-]|[]]]]]; cbn in Hc; repeat (destruct Hc as [<-|Hc]; [try discriminate Er|]); try destruct Hc;
        injection Er as <-; cbn in Hr; [|destruct Hr|destruct Hr]. destruct Hr as [<-|[]]. cbn in Hx. injection Hx as <-. right.
      exists [("id"%string, VBigInt 3)], (VBigInt 3). repeat split. now left.
Qed.
Example px_numbers : numbers_fit Some st_fresh px_schema px_db.
Proof.
  intros n t b c H Hb Hc Ha. exists (VBigInt (st_fresh b)). cbn in H.
  destruct H as [[= <- <-]|[[= <- <-]|[[= <- <-]|[[= <- <-]|[]]]]]; vm_compute in Hb; injection Hb as <-; cbn in Hc;
    repeat (destruct Hc as [<-|Hc]; [try discriminate Ha|]); try destruct Hc;
    (split; [|reflexivity]; exists TBigInt; split; [reflexivity|]; split; [now right|]; split; [cbn; lia|]; split; [intros (? & ? & Y); discriminate Y|]; split; discriminate).
Qed.
Example px_deployed : deployed Some table_resolve post_sem post post_code ddl_kw sqlite_like ex_conv st_veq ex_read true st_engine px_schema sv_table.
Proof.
  destruct sv_deployed as [H1 H2 H3 H4 _ H6 [_ M2 _ M4 M5] H8]. constructor; try assumption; [apply px_usable|]. constructor; try assumption.
  - right. right. now left.
  - intros f Hf. vm_compute in Hf. destruct Hf as [<-|[]]. exists px_pairs. split; [right; right; right; now left|]. split; [|split].
    + intros n. split.
      * intros (c & [<-|[<-|[]]] & <-); cbn; auto.
      * intros [-> | ->]; unfold has_column; cbn; [exists (px_ref "owner" TBigInt "posts")|exists (px_ref "has" TInt "Tag")]; auto.
    + intros c [<-|[<-|[]]]; reflexivity.
    + intros v Hv. change (do_pkcol post_code) with "id"%string in Hv. apply sv_keys in Hv as (z & -> & Hz). exists (px_ref "owner" TBigInt "posts"). split; [right; now left|]. split; [reflexivity|].
      exists TBigInt. split; [reflexivity|]. split; [now right|]. split; [cbn; lia|]. split; [intros (? & ? & Y); discriminate Y|]. split; discriminate.
Qed.
(** A post of the blog that is to have the tags. *)
Definition px_post (tags : list SqlVal) := sv_post None "second" (Some 3%Z) (set_pending many_new tags []).
Example px_fits : forall tag, small tag ->
  object_fits Some table_resolve post_sem rv_valid rv_init post post_code px_schema sv_table (px_post [VInt tag]).
Proof.
  unfold small. intros tag Ht. destruct (ac_fits 3 (or_introl eq_refl)) as [F1 F2 F3]. constructor.
  - intros f v Hf Ho (u & Hu & Hv). apply (F1 f v Hf Ho). exists u. split; [|exact Hv]. rewrite <- Hu. vm_compute in Hf. destruct Hf as [<-|[<-|[<-|[<-|[]]]]]; reflexivity.
  - exact F2.
  - intros f Hf. vm_compute in Hf. destruct Hf as [<-|[]]. exists (set_pending many_new [VInt tag] []). split; [reflexivity|]. split; [now left|]. split; [|constructor].
    intros rt H. cbn in H. destruct H as [H|[H|[H|[H|[]]]]]; try discriminate H. injection H as <-. constructor; [|constructor]. takes_tac (px_ref "has" TInt "Tag") TInt.
Qed.
Example px_plain : relations_plain table_resolve post post_code px_schema.
Proof.
  intros f rt c Hf H Hin. vm_compute in Hf. destruct Hf as [<-|[]]. cbn in H. destruct H as [H|[H|[H|[H|[]]]]]; try discriminate H. injection H as <-.
  destruct Hin as [<-|[<-|[]]]; (split; [reflexivity|]); (split; [reflexivity|]); intros k (q & Eq & ->) N; [discriminate N|]. injection Eq as <-. split; reflexivity.
Qed.
(** The tag is there: the post is stored with it.  A tag that is not there is refused. *)
Example C64_case_related : (exists o' db', sv_save (px_post [VInt 20]) px_db = (Ok tt, o', db')) /\ ~ (exists o' db', sv_save (px_post [VInt 21]) px_db = (Ok tt, o', db')).
Proof.
  split; [|intros (o' & db' & H); vm_compute in H; discriminate H].
  assert (VS : forall n x, value_of table_resolve post_sem post (px_post [VInt 20]) n x <-> value_of table_resolve post_sem post (ac_post 3) n x).
  { intros n x. split; intros (f & Hf & Nf & u & Hu & Hv); exists f; (split; [exact Hf|]); (split; [exact Nf|]); exists u; (split; [|exact Hv]); rewrite <- Hu;
      vm_compute in Hf; destruct Hf as [<-|[<-|[<-|[<-|[]]]]]; reflexivity. }
  refine (C64_new_number_related _ _ _ _ _ _ _ _ _ _ _ _ _ _ _ _ _ _ _ _ _ _ px_deployed px_keeps px_numbers (px_fits 20 _) _ px_plain _ _ _ _ _ _).
  - unfold small. lia.
  - split; [reflexivity|]. split; [eexists; split; reflexivity|]. intros k (u & Hu & Hk). vm_compute in Hu. injection Hu as <-. vm_compute in Hk. discriminate Hk.
  - intros b r k y Hb Hr Hy Hk. vm_compute in Hb. injection Hb as <-. destruct Hr as [<-|[]]. vm_compute in Hy. injection Hy as <-.
    destruct k; try discriminate Hk; vm_compute in Hk; try (injection Hk as ->); unfold equal, compare3; cbn; try discriminate.
    all: try (destruct b; discriminate).
  - intros c f [<-|[<-|[<-|[<-|[]]]]] (q & Er & _); try discriminate Er. discriminate.
  - intros f Hf. vm_compute in Hf. destruct Hf as [<-|[<-|[<-|[<-|[]]]]];
      [right; exists (VText "second"), (existT rust RString "second")|left; split; reflexivity
      |right; exists VNull, (existT rust (ROption (RInt I32)) None)|right; exists (VBigInt 3), (existT rust (ROption (RInt I64)) (Some 3%Z))];
      (split; reflexivity).
  - intros c r x y [<-|[<-|[<-|[<-|[]]]]] [H|H] V; try discriminate H. apply VS, ac_value in V as [V _]. now elim V.
  - intros c f x [<-|[<-|[<-|[<-|[]]]]] (q & Er & ->) V; try discriminate Er. injection Er as <-. apply VS, ac_value in V as [_ V]. rewrite (V eq_refl).
    right. left. exists [("id"%string, VBigInt 3)], (VBigInt 3). repeat split. now left.
  - intros f m rt c k v Hf Hm H Hin En (q & Er & ->) Hv. vm_compute in Hf. destruct Hf as [<-|[]]. cbn in H. destruct H as [H|[H|[H|[H|[]]]]]; try discriminate H. injection H as <-.
    destruct Hin as [<-|[<-|[]]]; [|discriminate En]. injection Er as <-. vm_compute in Hm. injection Hm as <-. destruct Hv as [<-|[]].
    exists [("id"%string, VInt 20)], (VInt 20). repeat split. now left.
Qed.

(** ** Labels near each other, whose keys are their own *)
Definition label : sdef :=
  {| st_ident := "Label"; st_attrs := []; st_fields := [ f_plain "id" (bare "i64"); f_plain "name" (bare "String"); f_plain "near" (t_gen "Many" (bare "Label")) ] |}.
Definition label_code : dbobject := match impl_dbobject table_resolve label with Ok g => g | _ => post_code end.
Definition lb_name : AColumn :=
  {| c_name := "name"; c_type := KnownId (TyId TText); c_nullable := false; c_pk := false; c_auto := false; c_unique := false; c_default := None; c_ref := None |}.
Definition lb_table : ATable := {| t_name := "Label"; t_cols := [tp_id; lb_name] |}.
Definition lb_pairs : ATable := {| t_name := "Label_near_Many"; t_cols := [px_ref "has" TBigInt "Label"; px_ref "owner" TBigInt "Label"] |}.
Definition lb_schema : ADB := {| a_tables := [("Label", lb_table); ("Label_near_Many", lb_pairs)]; a_types := [] |}.
Definition lb_row : Sql.row := [("id", VBigInt 7); ("name", VText "coq")].
Definition lb_rows : Sql.db := fun n => if String.eqb n "Label" then [lb_row] else [].
Definition lb_db : edb :=
  [("Label", {| b_cols := [sv_col "id" "INTEGER" true true; sv_col "name" "TEXT" true false]; b_fks := []; b_strict := true;
                b_rows := [[("id", LInteger 7); ("name", LText "coq")]] |});
   ("Label_near_Many", {| b_cols := [sv_col "has" "INTEGER" true false; sv_col "owner" "INTEGER" true false];
                b_fks := [{| fk_col := "has"; fk_table := "Label"; fk_ref := "id" |}; {| fk_col := "owner"; fk_table := "Label"; fk_ref := "id" |}];
                b_strict := true; b_rows := [] |})]%string.
Example lb_usable : usable lb_schema.
Proof.
  constructor.
  - wf_tac.
  - fine_tac.
  - intros n t c f H Hc (r & Er & ->). cbn in H.
    destruct H as [[= <- <-]|[[= <- <-]|[]]]; cbn in Hc; repeat (destruct Hc as [<-|Hc]; [try discriminate Er|]); try destruct Hc; injection Er as <-;
      exists lb_table, tp_id; cbn; auto 10.
Qed.
Example lb_keeps : keeps Some st_engine ex_conv true lb_schema lb_rows lb_db.
Proof.
  constructor.
  - repeat constructor.
  - apply realises_ok. vm_compute. reflexivity.
  - intros n. unfold lb_db, lb_rows. cbn [mget]. destruct (keqb n "Label"%string) eqn:E0; [apply keqb_eq in E0; subst n; cbn; repeat constructor|].
    destruct (keqb n "Label_near_Many"%string) eqn:E1; [apply keqb_eq in E1; subst n; cbn; repeat constructor|].
    destruct (String.eqb_spec n "Label") as [->|]; [discriminate E0|reflexivity].
  - intros n t [[= <- <-]|[[= <- <-]|[]]]; cbn; [|constructor]. constructor; [|constructor]. split; [repeat constructor; cbn; intuition discriminate|]. split.
    + intros n. split; [intros [<-|[<-|[]]]; [exists tp_id|exists lb_name]; cbn; auto|]. intros (c & [<-|[<-|[]]] & <-); cbn; auto.
    + repeat apply Forall_cons; [..|constructor]; cbn [fst snd]; [takes_tac tp_id TBigInt|takes_tac lb_name TText].
  - intros n b Hb. left. unfold lb_db in Hb. cbn [mget] in Hb. unfold has_table. destruct (keqb n "Label"%string) eqn:E1; [apply keqb_eq in E1; subst n; eexists; cbn; auto|].
    destruct (keqb n "Label_near_Many"%string) eqn:E2; [apply keqb_eq in E2; subst n; eexists; cbn; auto|discriminate Hb].
  - constructor.
    + intros n t c i j r s x y _ _ _ L Hi Hj. exfalso. assert (LL : List.length (lb_rows n) <= 1) by (unfold lb_rows; destruct (String.eqb _ _); cbn; lia).
      assert (j < List.length (lb_rows n)) by (apply nth_error_Some; congruence). lia.
    + intros n t c f r x [[= <- <-]|[[= <- <-]|[]]] Hc (q & Er & ->) Hr Hx; [|destruct Hr]. cbn in Hc. repeat (destruct Hc as [<-|Hc]; [discriminate Er|]). destruct Hc.
Qed.
Example lb_numbers : numbers_fit Some st_fresh lb_schema lb_db.
Proof. intros n t b c [[= <- <-]|[[= <- <-]|[]]] Hb [<-|[<-|[]]] Ha; discriminate Ha. Qed.
Lemma lb_keys v : given_fits Some lb_table "id" v -> exists z, v = VBigInt z /\ (- 2 ^ 63 <= z < 2 ^ 63)%Z.
Proof.
  intros (c & [<-|[<-|[]]] & E1 & R); try discriminate E1. apply tp_keys. exists tp_id. split; [now left|]. split; [reflexivity|exact R].
Qed.
Example lb_deployed : deployed Some table_resolve topic_sem label label_code ddl_kw sqlite_like ex_conv st_veq ex_read true st_engine lb_schema lb_table.
Proof.
  constructor.
  - split.
    + cbn. repeat (constructor; [cbn; intuition discriminate|]). constructor.
    + intros pk Hk. apply (key_field_pk label) in Hk.
      * vm_compute in Hk. inversion Hk. reflexivity.
      * cbn. repeat (constructor; [cbn; intuition discriminate|]). constructor.
  - vm_compute. reflexivity.
  - apply st_ok.
  - intros z. unfold equal, compare3. cbn. now rewrite Z.compare_refl.
  - apply lb_usable.
  - constructor; try (vm_compute; reflexivity).
    + split; [discriminate|reflexivity].
    + repeat constructor.
    + split; vm_compute; reflexivity.
    + repeat constructor.
  - constructor.
    + now left.
    + split.
      * intros f Hf. vm_compute in Hf. destruct Hf as [<-|[<-|[]]]; [exists tp_id|exists lb_name];
          (split; [cbn; auto|]); (constructor; [reflexivity|reflexivity|vm_compute; intuition congruence|vm_compute; intuition congruence]).
      * intros c Hc. cbn in Hc. destruct Hc as [<-|[<-|[]]];
          [exists (nth 0 (row_fields table_resolve label) (do_pk label_code))|exists (nth 1 (row_fields table_resolve label) (do_pk label_code))];
          (split; [vm_compute; auto 10|]); (constructor; [reflexivity|reflexivity|vm_compute; intuition congruence|vm_compute; intuition congruence]).
    + intros f Hf. vm_compute in Hf. destruct Hf as [<-|[]]. exists lb_pairs. split; [right; now left|]. split; [|split].
      * intros n. split.
        -- intros (c & [<-|[<-|[]]] & <-); cbn; auto.
        -- intros [-> | ->]; unfold has_column; cbn; [exists (px_ref "owner" TBigInt "Label")|exists (px_ref "has" TBigInt "Label")]; auto.
      * intros c [<-|[<-|[]]]; reflexivity.
      * intros v Hv. change (do_pkcol label_code) with "id"%string in Hv. apply lb_keys in Hv as (z & -> & Hz). exists (px_ref "owner" TBigInt "Label"). split; [right; now left|]. split; [reflexivity|].
        exists TBigInt. split; [reflexivity|]. split; [now right|]. split; [cbn; lia|]. split; [intros (? & ? & Y); discriminate Y|]. split; discriminate.
    + intros H. vm_compute in H. discriminate H.
    + intros c [<-|[<-|[]]]; discriminate.
  - change (do_pkcol label_code) with "id"%string. intros x y Hx Hy. apply lb_keys in Hx as (a & -> & _). apply lb_keys in Hy as (c & -> & _). unfold compare3. cbn.
    destruct (Z.compare_spec a c) as [Hx|Hx|Hx]; split; intros Hy; try congruence; inversion Hy; subst; lia.
Qed.
Definition lb_object (id : Z) (near : list SqlVal) : @object rvalue (many Z) :=
  [ ("id", FV (existT rust (RInt I64) id)); ("name", FV (existT rust RString "rocq")); ("near", FM (set_pending many_new near [])) ].
Notation lb_save := (save_on sv_M topic_sem rv_valid rv_init label_code).
Example lb_fits : forall id z, small id -> small z ->
  object_fits Some table_resolve topic_sem rv_valid rv_init label label_code lb_schema lb_table (lb_object id [VBigInt z]).
Proof.
  unfold small. intros id z Hi Hz. constructor.
  - intros f v Hf Ho (u & Hu & Ht). vm_compute in Hf. destruct Hf as [<-|[<-|[]]]; cbn in Hu; injection Hu as <-; cbn in Ht; injection Ht as <-.
    + takes_tac tp_id TBigInt.
    + takes_tac lb_name TText.
  - intros u H. vm_compute in H. discriminate H.
  - intros f Hf. vm_compute in Hf. destruct Hf as [<-|[]]. exists (set_pending many_new [VBigInt z] []). split; [reflexivity|]. split; [now left|]. split; [|constructor].
    intros rt H. cbn in H. destruct H as [H|[H|[]]]; try discriminate H. injection H as <-. constructor; [|constructor]. takes_tac (px_ref "has" TBigInt "Label") TBigInt.
Qed.
(** Near a stored label a label is stored; near one that is not there it is not. *)
Example C64_case_own_related : (exists o' db', lb_save (lb_object 8 [VBigInt 7]) lb_db = (Ok tt, o', db')) /\ ~ (exists o' db', lb_save (lb_object 8 [VBigInt 6]) lb_db = (Ok tt, o', db')).
Proof.
  split; [|intros (o' & db' & H); vm_compute in H; discriminate H].
  assert (S8 : small 8) by (unfold small; lia). assert (S7 : small 7) by (unfold small; lia).
  refine (C64_own_key_related _ _ _ _ _ _ _ _ _ _ _ _ _ _ _ _ _ _ _ _ _ _ lb_deployed lb_keeps lb_numbers (lb_fits 8 7 S8 S7) eq_refl _ _ _ _ _ _).
  - intros f rt c Hf H Hin. vm_compute in Hf. destruct Hf as [<-|[]]. cbn in H. destruct H as [H|[H|[]]]; try discriminate H. injection H as <-.
    destruct Hin as [<-|[<-|[]]]; (split; [reflexivity|]); (split; [reflexivity|]); intros k (q & Eq & ->) N; [discriminate N|]. injection Eq as <-. split; reflexivity.
  - intros k (u & Hu & Hk) (r & Hr & Hy). vm_compute in Hu. injection Hu as <-. cbn in Hk. injection Hk as <-. destruct Hr as [<-|[]]. vm_compute in Hy. discriminate Hy.
  - intros f Hf. right. vm_compute in Hf. destruct Hf as [<-|[<-|[]]]; [exists (VBigInt 8), (existT rust (RInt I64) 8%Z)|exists (VText "rocq"), (existT rust RString "rocq")]; split; reflexivity.
  - intros c r x y [<-|[<-|[]]] Hk V Hr Hy Q; [|destruct Hk as [Hk|Hk]; discriminate Hk]. destruct Hr as [<-|[]]. cbn in Hy. injection Hy as <-.
    destruct V as (f & Hf & Nf & (u & Hu & Hx)). vm_compute in Hf. destruct Hf as [<-|[<-|[]]]; [|discriminate Nf]. vm_compute in Hu. injection Hu as <-.
    cbn in Hx. injection Hx as <-. vm_compute in Q. discriminate Q.
  - intros c f x [<-|[<-|[]]] (q & Er & _); discriminate Er.
  - intros f m rt c k v Hf Hm H Hin En (q & Er & ->) Hv. vm_compute in Hf. destruct Hf as [<-|[]]. cbn in H. destruct H as [H|[H|[]]]; try discriminate H. injection H as <-.
    destruct Hin as [<-|[<-|[]]]; [|discriminate En]. injection Er as <-. vm_compute in Hm. injection Hm as <-. destruct Hv as [<-|[]].
    exists lb_row, (VBigInt 7). repeat split. now left.
Qed.
