(** Property C63: objects stay through migrations. *)
From Verif Require Import Base SqlVal Adb AdbSpec AdbProofs Conv ConvSpec ConvProofs Sql SqlStmt Query QuerySpec Stmt StmtSpec Literal LiteralSpec Ddl DdlSpec
  SqliteSem SqliteData Backend BackendSpec Turso MigrateSpec DataCalls StoredSpec StoredRel StoredProofs Conn ConnProofs Many ManyProofs Codegen CodegenSpec CodegenProofs
  Obj ObjSpec ObjProofs
  Props_Query Props_Models Props_Objects Props_Schema Props_TursoScript Props_Migrations Props_Migrate Props_Deploy Props_Stored Saved SavedSpec SavedProofs
  Props_Saved Loaded LoadedSpec LoadedProofs HistorySpec HistoryProofs Props_History Props_Loaded FsSpec FsStore Store StoreSpec Chain ChainSpec Deploy DeploySpec
  DeployWalk CarriedSpec CarriedProofs Props_Carried EvolvedSpec EvolvedProofs.

(** ** The objects of the new version *)
(** What the later version of the model makes of a stored object: there is such an object,
    and only one. *)
Theorem C63_object : forall U X json_text resolve sem kw dl conv veq read strict E d d2 m m2 D D2 db r (o : @object U (many X)),
  deployed json_text resolve sem (mo_decl m) (mo_code m) kw dl conv veq read strict E d (mo_tab m) ->
  deployed json_text resolve sem (mo_decl m2) (mo_code m2) kw dl conv veq read strict E d2 (mo_tab m2) ->
  evolves resolve sem m m2 -> keeps json_text E conv strict d D db -> rows_after d d2 D D2 ->
  In r (D (table_name m)) -> is_row_of resolve sem (mo_decl m) (mo_code m) o r ->
  (exists o2 : @object U (many X), object_after resolve sem m m2 o o2)
  /\ forall o2 o3 : @object U (many X), object_after resolve sem m m2 o o2 -> object_after resolve sem m m2 o o3 -> equal_objects resolve (mo_decl m2) o2 o3.
Proof.
  intros U X json_text resolve sem kw dl conv veq read strict E d d2 m m2 D D2 db r o DP DP2 EV KP RA Hr IR.
  pose proof (mi_table _ _ _ _ _ _ _ (dp_model _ _ _ _ _ _ _ _ _ _ _ _ _ _ DP)) as T.
  pose proof (mi_table _ _ _ _ _ _ _ (dp_model _ _ _ _ _ _ _ _ _ _ _ _ _ _ DP2)) as T2. rewrite (ev_table _ _ _ _ EV) in T2.
  destruct (proj2 (forall2_in _ _ _ (proj1 RA _ _ _ T T2)) r Hr) as (r' & _ & R').
  pose proof (proj1 (Forall_forall _ _) (kp_fit _ _ _ _ _ _ _ KP _ _ T) r Hr) as RF. split.
  - exact (after_exists json_text resolve sem kw dl conv veq read strict E d d2 m m2 DP DP2 EV r r' RF R' o IR).
  - intros o2 o3 A2 A3.
    pose proof (after_is_row json_text resolve sem kw dl conv veq read strict E d d2 m m2 DP DP2 EV r r' R' o o2 IR A2) as (H2 & F2 & k2 & S2 & L2).
    pose proof (after_is_row json_text resolve sem kw dl conv veq read strict E d d2 m m2 DP DP2 EV r r' R' o o3 IR A3) as (H3 & F3 & k3 & S3 & L3).
    assert (G : forall f, In f (row_fields resolve (mo_decl m2)) -> obj_get o2 (sf_ident f) = obj_get o3 (sf_ident f)).
    { intros f Hf. destruct (H2 f Hf) as (v & (u & U1 & U2) & V1). destruct (H3 f Hf) as (v' & (u' & U1' & U2') & V1'). rewrite V1 in V1'. injection V1' as <-.
      destruct (F2 f u Hf U1 v U2) as [_ X1]. destruct (F3 f u' Hf U1' v U2') as [_ X2]. rewrite X1 in X2. injection X2 as <-. now rewrite U1, U1'. }
    split; [exact G|]. intros f Hf. destruct (L2 f Hf) as (x & X1 & X2 & X3). destruct (L3 f Hf) as (y & Y1 & Y2 & Y3). exists x, y. split; [exact X1|]. split; [exact Y1|].
    split; [|congruence]. rewrite X2, Y2. f_equal. destruct S2 as (a & A1 & B1), S3 as (b & C1 & E1).
    rewrite (G _ (proj1 (pk_field json_text resolve sem kw dl conv veq read strict E d2 m2 DP2))), C1 in A1. injection A1 as ->. rewrite B1 in E1. now injection E1.
Qed.
Print Assumptions C63_object.

(** ** Loading after a migration *)
(** [stored] are the rows of the model's table, each with its object, before the database
    was migrated.  After that the table has as many rows, in the same order, each that of
    what the later version of the model makes of the object; and every query of the later
    version finds exactly those of these objects it asks for. *)
Theorem C63_load_partial : forall U X json_text resolve sem kw dl conv veq read strict E d d2 m m2 D db db2 (stored : list (Sql.row * @object U (many X))),
  deployed json_text resolve sem (mo_decl m) (mo_code m) kw dl conv veq read strict E d (mo_tab m) ->
  deployed json_text resolve sem (mo_decl m2) (mo_code m2) kw dl conv veq read strict E d2 (mo_tab m2) ->
  evolves resolve sem m m2 -> gentle json_text d d2 -> keeps json_text E conv strict d D db -> table_of resolve sem (mo_decl m) (mo_code m) D stored ->
  migrated conv strict d d2 db db2 -> msorted db2 ->
  exists D2 (stored2 : list (Sql.row * @object U (many X))), keeps json_text E conv strict d2 D2 db2
    /\ table_of resolve sem (mo_decl m2) (mo_code m2) D2 stored2
    /\ Forall2 (fun p q => object_after resolve sem m m2 (snd p) (snd q)) stored stored2
    /\ forall x, query_fits E dl (table_name m2) D2 x -> nonneg (q_limit x) -> StmtSpec.fits Sqlite x (q_limit x) D2 ->
         (exists r, sqlite_load_answers (X := X) json_text kw dl E sem (mo_code m2) x db2 r)
         /\ forall r, sqlite_load_answers (X := X) json_text kw dl E sem (mo_code m2) x db2 r ->
              exists found l, r = Ok l /\ query_finds (mo_code m2) E D2 stored2 x (q_limit x) found /\ all_equal resolve (mo_decl m2) found l.
Proof.
  intros U X json_text resolve sem kw dl conv veq read strict E d d2 m m2 D db db2 stored DP DP2 EV GE KP [T1 T2] MG SO.
  destruct (C57_change json_text E veq conv strict d d2 D db db2 (sr_compares _ _ _ _ _ _ _ (dp_engine _ _ _ _ _ _ _ _ _ _ _ _ _ _ DP))
    (dp_schema _ _ _ _ _ _ _ _ _ _ _ _ _ _ DP) (dp_schema _ _ _ _ _ _ _ _ _ _ _ _ _ _ DP2) GE KP MG SO) as (D2 & RA & KP2).
  pose proof (mi_table _ _ _ _ _ _ _ (dp_model _ _ _ _ _ _ _ _ _ _ _ _ _ _ DP)) as T.
  pose proof (mi_table _ _ _ _ _ _ _ (dp_model _ _ _ _ _ _ _ _ _ _ _ _ _ _ DP2)) as T'. rewrite (ev_table _ _ _ _ EV) in T'.
  pose proof (proj1 RA _ _ _ T T') as F2. pose proof (kp_fit _ _ _ _ _ _ _ KP _ _ T) as FT.
  assert (G : exists stored2 : list (Sql.row * @object U (many X)), map fst stored2 = D2 (table_name m)
    /\ Forall (fun p => is_row_of resolve sem (mo_decl m2) (mo_code m2) (snd p) (fst p)) stored2
    /\ Forall2 (fun p q => object_after resolve sem m m2 (snd p) (snd q)) stored stored2).
  { rewrite <- T1 in F2, FT. revert F2 FT. generalize (D2 (table_name m)). clear T1. induction stored as [|[r o] st IH]; cbn [map fst]; intros l F2 FT.
    - inversion F2; subst. exists []. repeat constructor.
    - inversion F2 as [|? r' ? l' RR F2']; subst. inversion FT as [|? ? RF FT']; subst. inversion T2 as [|? ? IR T2']; subst. cbn [fst snd] in IR.
      destruct (IH T2' l' F2' FT') as (st2 & S1 & S2 & S3).
      destruct (after_exists json_text resolve sem kw dl conv veq read strict E d d2 m m2 DP DP2 EV r r' RF RR o IR) as (o2 & A2).
      exists ((r', o2) :: st2). cbn [map fst]. split; [now rewrite S1|]. split; constructor; auto.
      exact (after_is_row json_text resolve sem kw dl conv veq read strict E d d2 m m2 DP DP2 EV r r' RR o o2 IR A2). }
  destruct G as (stored2 & G1 & G2 & G3). exists D2, stored2. split; [exact KP2|].
  assert (TO : table_of resolve sem (mo_decl m2) (mo_code m2) D2 stored2) by (split; [now rewrite (ev_table _ _ _ _ EV)|exact G2]).
  split; [exact TO|]. split; [exact G3|]. intros x Q1 Q2 Q3.
  exact (C60_load_partial U X json_text resolve sem (mo_decl m2) (mo_code m2) kw dl conv veq read strict E d2 (mo_tab m2) D2 db2 x stored2 DP2 KP2 TO Q1 Q2 Q3).
Qed.
Print Assumptions C63_load_partial.

(** ** A life *)
(** Objects are saved and deleted by one version of the program, the database is migrated
    to the next version's schema, objects are saved and deleted by that version, and so
    on.  At the end [get] finds each object known to be there, as the latest version of its
    model has it, and none where there is none.  Missing, as in C59_history_partial: a save
    that succeeds although it stores nothing. *)
Theorem C63_life_partial : forall U X json_text resolve sem valid init kw dl conv veq read strict E fresh v w D db kn db2 kn2,
  version_fine json_text resolve sem kw dl conv veq read strict E v -> usable (fst v) -> compares_stored E veq ->
  keeps json_text E conv strict (fst v) D db -> known_before (X := X) E (snd v) D kn ->
  @lived_by U X json_text resolve sem valid init kw dl conv veq read strict E fresh v db kn w db2 kn2 ->
  (exists D2, keeps json_text E conv strict (fst w) D2 db2) /\ all_found json_text resolve sem kw dl E (snd w) db2 kn2.
Proof.
  intros U X json_text resolve sem valid init kw dl conv veq read strict E fresh v w D db kn db2 kn2 VF US CS KP KB L.
  assert (I : inv json_text resolve sem kw dl conv strict E (fst v) (snd v) D db kn).
  { split; [assumption|]. intros m k Hm Kk. destruct (KB m k Hm) as [-> | [-> N]]; [split; exact Logic.I|].
    now apply (absent_right json_text resolve sem kw dl conv veq read strict E (fst v) (snd v) (proj1 VF)). }
  clear KP KB. revert D I VF US. induction L as [v db kn|v db kn db1 kn1 w db2 kn2 H _ IH|v db kn v1 db1 kn1 w db2 kn2 VF1 US1 GE MG SO KA _ IH]; intros D I VF US.
  - split; [exists D; apply I|]. intros m k Hm Kk. exact (proj1 (proj2 I m k Hm Kk)).
  - destruct (history_inv json_text resolve sem valid init kw dl conv veq read strict E fresh (fst v) (snd v) (proj1 VF) (proj2 VF) db kn db1 kn1 H D I) as (D1 & I1).
    exact (IH D1 I1 VF US).
  - destruct (C57_change json_text E veq conv strict _ _ D db db1 CS US US1 GE (proj1 I) MG SO) as (D1 & RA & KP1).
    apply (IH D1); [|exact VF1|exact US1]. apply (rows_inv json_text resolve sem kw dl conv veq read strict E _ _ D1 db1 kn1 (proj1 VF1) KP1).
    exact (right_after json_text resolve sem kw dl conv veq read strict E _ _ _ _ D D1 kn kn1 (proj1 VF) (proj1 VF1) (kp_fit _ _ _ _ _ _ _ (proj1 I)) RA
      (inv_rows json_text resolve sem kw dl conv strict E _ _ D db kn I) KA).
Qed.
Print Assumptions C63_life_partial.

(** ** Deploying *)
(** [p] are the migrations of the program that saved and deleted the objects, [q] those
    that came since, each with the schema and the models of its version.  However far
    deploying them gets, [get] by the version whose migration was applied last finds each
    object known to be there, as that version has it. *)
Theorem C63_deploy_partial : forall U X json_text resolve sem valid init kw show read conv veq e E fresh M (c : Coll M) bs plan p q models vs s D kn db1 kn1 r s' k kn2,
  engine_fine kw show read conv e ->
  version_fine json_text resolve sem kw sqlite_like conv veq read (strict_of e) E (schema_after p, models) ->
  Forall (version_fine json_text resolve sem kw sqlite_like conv veq read (strict_of e) E) vs -> map fst vs = map snd q ->
  compares_stored E veq -> Forall usable (map snd (p ++ q)) -> gentle_all json_text (schema_after p) (map snd q) ->
  coherent c -> chain c (map fst (p ++ q)) -> scripted c bs (backend_of kw show e) None adb_new (p ++ q) ->
  changes_fine (strict_of e) adb_new (map snd (p ++ q)) ->
  records c s (map fst p) -> database_is conv (strict_of e) (schema_after p) s ->
  keeps json_text E conv (strict_of e) (schema_after p) D (dbs_rest s) -> known_before (X := X) E models D kn ->
  @HistorySpec.history U X json_text resolve sem valid init kw sqlite_like conv veq read E fresh (schema_after p) models (dbs_rest s) kn db1 kn1 ->
  let s1 := {| dbs_rest := db1; dbs_mig := dbs_mig s |} in
  migrate (exec_of conv veq read sqlite_like e) (b_name (backend_of kw show e)) plan c (conn_on s1) = (r, s') ->
  k <= length q -> records c (cn_db s') (map fst (p ++ firstn k q)) ->
  forall w, known_through json_text resolve sem (schema_after p, models) kn1 (firstn k vs) w kn2 ->
    fst w = schema_after (p ++ firstn k q)
    /\ (exists D2, keeps json_text E conv (strict_of e) (fst w) D2 (dbs_rest (cn_db s')))
    /\ all_found json_text resolve sem kw sqlite_like E (snd w) (dbs_rest (cn_db s')) kn2
    /\ (r = Val tt -> k = length q).
Proof.
  intros U X json_text resolve sem valid init kw show read conv veq e E fresh M c bs plan p q models vs s D kn db1 kn1 r s' k kn2
    EF VF VS EQ CS US GE CO CH SC CF R DI0 KP KB H s1 MG Lk Rk w KT.
  assert (I : inv json_text resolve sem kw sqlite_like conv (strict_of e) E (schema_after p) models D (dbs_rest s) kn).
  { split; [assumption|]. intros m i Hm Ki. destruct (KB m i Hm) as [-> | [-> N]]; [split; exact Logic.I|].
    now apply (absent_right json_text resolve sem kw sqlite_like conv veq read (strict_of e) E (schema_after p) models (proj1 VF)). }
  destruct (history_inv json_text resolve sem valid init kw sqlite_like conv veq read (strict_of e) E fresh (schema_after p) models (proj1 VF) (proj2 VF) _ _ _ _ H D I) as (D1 & I1).
  pose proof (history_is json_text resolve sem valid init kw sqlite_like conv veq read E fresh (strict_of e) _ _ s kn db1 kn1 D1 H DI0 (proj1 I1)) as DI.
  destruct (C51_deploy kw show read conv veq e M c bs plan p q s1 r s' EF CO CH SC CF R DI MG) as (k' & Lk' & R' & CA & DI' & V).
  assert (Ek : k' = k).
  { assert (L : length (map fst (p ++ firstn k' q)) = length (map fst (p ++ firstn k q))).
    { unfold records in R', Rk. destruct (dbs_mig (cn_db s')) as [rows|].
      - rewrite R' in Rk. apply (f_equal (@length _)) in Rk. unfold names in Rk. rewrite !map_length in Rk. rewrite !map_length. congruence.
      - now rewrite R', Rk. }
    rewrite !map_length, !app_length, !firstn_length in L. lia. }
  subst k'.
  assert (UA : usable adb_new).
  { constructor; [split; [constructor|intros ? ? []]| |intros ? ? ? ? []]. intros ? ? []. }
  rewrite Forall_forall in US.
  assert (UP : usable (schema_after p)).
  { unfold schema_after. destruct p as [|x p]; [exact UA|]. apply US. rewrite map_app. apply in_app_iff. left.
    clear. generalize adb_new. cbn [map]. revert x. induction p as [|y p IH]; intros x d; [now left|]. cbn [map]. right. apply (IH y). }
  assert (ES : last (map snd (firstn k q)) (schema_after p) = schema_after (p ++ firstn k q)).
  { unfold schema_after. rewrite map_app. clear. generalize (map snd (firstn k q)). intros l. induction (map snd p) as [|x m IH] using rev_ind; [reflexivity|].
    rewrite last_last, <- app_assoc. cbn [List.app]. clear IH. generalize adb_new. induction m as [|y m IH]; intros d; [symmetry; apply DeployWalk.last_cons|].
    change ((y :: m) ++ x :: l) with (y :: (m ++ x :: l)). rewrite DeployWalk.last_cons. apply IH. }
  assert (MAIN : forall (l : list version) (x : version) dbx dby (knx knw : @knowledge U X), carried conv (strict_of e) (fst x) (map fst l) dbx dby -> known_through json_text resolve sem x knx l w knw ->
    version_fine json_text resolve sem kw sqlite_like conv veq read (strict_of e) E x -> Forall (version_fine json_text resolve sem kw sqlite_like conv veq read (strict_of e) E) l ->
    usable (fst x) -> Forall usable (map fst l) -> gentle_all json_text (fst x) (map fst l) ->
    forall Dx, held json_text E conv (strict_of e) (fst x) Dx dbx -> rows_right json_text resolve sem E (snd x) Dx knx ->
    fst w = last (map fst l) (fst x) /\ version_fine json_text resolve sem kw sqlite_like conv veq read (strict_of e) E w
    /\ exists Dy, held json_text E conv (strict_of e) (fst w) Dy dby /\ rows_right json_text resolve sem E (snd w) Dy knw).
  { clear -CS. intros l. induction l as [|y l IH]; intros x dbx dby knx knw CA KT VX VL UX UL GL Dx HD RR.
    - inversion CA; subst. inversion KT; subst. split; [reflexivity|]. split; [exact VX|]. exists Dx. auto.
    - inversion CA as [|? ? ? ? dbz ? M1 C1]; subst. inversion KT as [|? ? ? knz ? ? ? KA KT1]; subst. inversion VL as [|? ? VY VL']; subst.
      cbn [map] in UL, GL. inversion UL as [|? ? UY UL']; subst. destruct GL as [G1 G2].
      destruct (rows_carried json_text E veq conv (strict_of e) CS _ _ Dx dbx dbz (us_wf _ UX) (us_wf _ UY) (us_keys _ UX) (us_keys _ UY) G1 HD M1) as (Dz & RA & HZ).
      destruct (IH y dbz dby knz knw C1 KT1 VY VL' UY UL' G2 Dz HZ) as (E1 & W1 & W2).
      + exact (right_after json_text resolve sem kw sqlite_like conv veq read (strict_of e) E _ _ _ _ Dx Dz knx knz (proj1 VX) (proj1 VY) (proj1 (proj2 (proj2 HD))) RA RR KA).
      + split; [|auto]. rewrite E1. cbn [map]. now rewrite DeployWalk.last_cons. }
  assert (EL : map fst (firstn k vs) = map snd (firstn k q)) by (pose proof (f_equal (firstn k) EQ) as A; rewrite !List.firstn_map in A; exact A).
  destruct (MAIN (firstn k vs) (schema_after p, models) (dbs_rest s1) (dbs_rest (cn_db s')) kn1 kn2) with (Dx := D1) as (E1 & W1 & D2 & H2 & RR2).
  - cbn [fst]. rewrite EL. exact CA.
  - exact KT.
  - exact VF.
  - apply Forall_forall. intros x Hx. apply (proj1 (Forall_forall _ _) VS). rewrite <- (firstn_skipn k vs). apply in_app_iff. now left.
  - exact UP.
  - rewrite EL. apply Forall_forall. intros x Hx. apply US. rewrite map_app. apply in_app_iff. right. apply in_map_iff in Hx as (y & <- & Hy). apply in_map.
    rewrite <- (firstn_skipn k q). apply in_app_iff. now left.
  - cbn [fst]. rewrite EL. clear -GE. revert GE k. generalize (schema_after p). induction q as [|[mm x] q IH]; intros d GE [|k]; cbn in *; try exact I. split; [apply GE|]. now apply IH.
  - exact (keeps_held _ _ _ _ _ _ _ (proj1 I1)).
  - exact (inv_rows json_text resolve sem kw sqlite_like conv (strict_of e) E _ _ D1 db1 kn1 I1).
  - rewrite EL in E1. cbn [fst] in E1. rewrite ES in E1. rewrite <- E1 in DI'.
    pose proof (held_keeps json_text E conv (strict_of e) _ _ _ (di_sorted _ _ _ _ DI') H2) as KP2.
    split; [exact E1|]. split; [exists D2; exact KP2|]. split; [|exact V]. intros m i Hm Ki.
    exact (proj1 (proj2 (rows_inv json_text resolve sem kw sqlite_like conv veq read (strict_of e) E _ _ D2 _ kn2 (proj1 W1) KP2 RR2) m i Hm Ki)).
Qed.
Print Assumptions C63_deploy_partial.

(** * A case *)
(** Posts get a body, and their type becomes an i64. *)
Definition ev_post : sdef :=
  {| st_ident := "Post"; st_attrs := [AttrStruct "derive(Clone)"; AttrTable "posts"];
     st_fields := [ f_plain "title" (bare "String");
                    f_plain "tags" (t_gen "Many" (TPath false ["tag"] "Tag" None));
                    f_plain "id" (TPath false ["butane"] "AutoPk" (Some [GType (bare "i64")]));
                    {| sf_ident := "r#type"; sf_ty := t_gen "Option" (bare "i64");
                       sf_attrs := [AttrUnique; AttrDefault (Some (LitInt 7))] |};
                    f_plain "blog" (t_gen "Option" (t_gen "ForeignKey" (bare "Blog")));
                    f_plain "body" (bare "String") ] |}%string.
Definition ev_code : dbobject := match impl_dbobject table_resolve ev_post with Ok g => g | _ => post_code end.
Definition ev_blog : AColumn := sv_opt "blog" TBigInt (Some (RefLiteral {| rl_table := "Blog"; rl_column := "id" |})).
Definition ev_table : ATable :=
  {| t_name := "posts"; t_cols := [ev_blog; col "body" TText; sv_key; col "title" TText; sv_opt "type" TBigInt None] |}.
Definition ev_schema : ADB :=
  {| a_tables := [("Blog", {| t_name := "Blog"; t_cols := [sv_key] |}); ("posts", ev_table);
                  ("posts_tags_Many", {| t_name := "posts_tags_Many"; t_cols := [col "has" TInt; col "owner" TBigInt] |})]; a_types := [] |}%string.
Definition ev_model : model := {| mo_decl := ev_post; mo_code := ev_code; mo_tab := ev_table |}.
Definition ev_db : edb :=
  [("Blog", {| b_cols := [sv_col "id" "INTEGER" true true]; b_fks := []; b_strict := true; b_rows := [] |});
   ("posts", {| b_cols := [sv_col "blog" "INTEGER" false false; sv_col "body" "TEXT" true false; sv_col "id" "INTEGER" true true;
                           sv_col "title" "TEXT" true false; sv_col "type" "INTEGER" false false];
                b_fks := [{| fk_col := "blog"; fk_table := "Blog"; fk_ref := "id" |}]; b_strict := true;
                b_rows := [[("blog", LNull); ("body", LText ""); ("id", LInteger 1); ("title", LText "bye"); ("type", LNull)]] |});
   ("posts_tags_Many", {| b_cols := [sv_col "has" "INTEGER" true false; sv_col "owner" "INTEGER" true false]; b_fks := []; b_strict := true; b_rows := hs_tags |})]%string.
(** The post as the later version has it. *)
Definition ev_saved : @object rvalue (many Z) :=
  [ ("title", FV (existT rust RString "bye"%string)); ("tags", FM (ex_tags_of 1 [] [])); ("id", FV (existT rust (RAutoPk (RInt I64)) (Some 1%Z)));
    ("r#type", FV (existT rust (ROption (RInt I64)) None)); ("blog", FV (existT rust (ROption (RInt I64)) None)); ("body", FV (existT rust RString ""%string)) ]%string.

Lemma ev_code_is : compiles table_resolve ev_post /\ impl_dbobject table_resolve ev_post = Ok ev_code
  /\ map fst (dr_columns (do_result ev_code)) = ["title"; "id"; "type"; "blog"; "body"]%string /\ do_table ev_code = "posts"%string
  /\ do_pkcol ev_code = "id"%string /\ do_auto ev_code = true /\ do_save_many ev_code = [("tags", "posts_tags_Many")]%string.
Proof.
  split.
  - split.
    + cbn. repeat (constructor; [cbn; intuition discriminate|]). constructor.
    + intros pk Hk. apply (key_field_pk ev_post) in Hk.
      * vm_compute in Hk. inversion Hk. reflexivity.
      * cbn. repeat (constructor; [cbn; intuition discriminate|]). constructor.
  - repeat split; vm_compute; reflexivity.
Qed.
Example ev_usable : usable ev_schema.
Proof.
  constructor.
  - wf_tac.
  - fine_tac.
  - intros n t c f H Hc (r & Er & ->). cbn in H.
    destruct H as [[= <- <-]|[[= <- <-]|[[= <- <-]|[]]]]; cbn in Hc; repeat (destruct Hc as [<-|Hc]; [try discriminate Er|]); try destruct Hc.
    injection Er as <-. exists {| t_name := "Blog"; t_cols := [sv_key] |}, sv_key. cbn. auto 10.
Qed.
Lemma ev_keys v : given_fits Some ev_table "id" v -> exists z, v = VBigInt z /\ (- 2 ^ 63 <= z < 2 ^ 63)%Z.
Proof.
  intros (c & [<-|[<-|[<-|[<-|[<-|[]]]]]] & E1 & ty & E2 & K1 & V1 & C1 & _ & N1); try discriminate E1.
  injection E2 as <-. destruct v; cbn in K1, V1; try (destruct K1 as [K1|K1]; discriminate K1).
  - destruct (N1 eq_refl) as [X _]. discriminate X.
  - eexists. split; [reflexivity|lia].
Qed.
Example ev_deployed : deployed Some table_resolve post_sem ev_post ev_code ddl_kw sqlite_like ex_conv st_veq ex_read true st_engine ev_schema ev_table.
Proof.
  destruct ev_code_is as (H1 & H2 & H3 & H5 & H6 & H7 & H8). pose proof sv_deployed as SV. constructor.
  - exact H1.
  - exact H2.
  - apply st_ok.
  - apply SV.
  - apply ev_usable.
  - split.
    + rewrite H5. vm_compute. reflexivity.
    + rewrite H5. split; [discriminate|vm_compute; reflexivity].
    + rewrite H3. repeat constructor.
    + rewrite H6. split; vm_compute; reflexivity.
    + exact Logic.I.
    + exact Logic.I.
    + vm_compute. reflexivity.
    + rewrite H8. repeat constructor.
  - constructor.
    + rewrite H5. right. now left.
    + split.
      * intros f Hf. vm_compute in Hf.
        destruct Hf as [<-|[<-|[<-|[<-|[<-|[]]]]]]; [exists (col "title" TText)|exists sv_key|exists (sv_opt "type" TBigInt None)|exists ev_blog|exists (col "body" TText)];
          (split; [cbn; auto 10|]); (constructor; [reflexivity|reflexivity|vm_compute; intuition congruence|vm_compute; intuition congruence]).
      * intros c Hc. cbn in Hc. destruct Hc as [<-|[<-|[<-|[<-|[<-|[]]]]]];
          [exists (nth 3 (row_fields table_resolve ev_post) (do_pk ev_code))|exists (nth 4 (row_fields table_resolve ev_post) (do_pk ev_code))
          |exists (nth 1 (row_fields table_resolve ev_post) (do_pk ev_code))
          |exists (nth 0 (row_fields table_resolve ev_post) (do_pk ev_code))|exists (nth 2 (row_fields table_resolve ev_post) (do_pk ev_code))];
          (split; [vm_compute; auto 10|]); (constructor; [reflexivity|reflexivity|vm_compute; intuition congruence|vm_compute; intuition congruence]).
    + intros f Hf. vm_compute in Hf. destruct Hf as [<-|[]]. eexists. split; [right; right; left; reflexivity|]. split; [|split].
      * intros n. split.
        -- intros (c & [<-|[<-|[]]] & <-); cbn; auto.
        -- intros [-> | ->]; unfold has_column; cbn; [exists (col "owner" TBigInt)|exists (col "has" TInt)]; auto.
      * intros c [<-|[<-|[]]]; reflexivity.
      * intros v Hv. rewrite H6 in Hv. apply ev_keys in Hv as (z & -> & Hz). exists (col "owner" TBigInt). split; [right; now left|]. split; [reflexivity|].
        exists TBigInt. split; [reflexivity|]. split; [now right|]. split; [cbn; lia|]. split; [intros (? & ? & Y); discriminate Y|]. split; discriminate.
    + intros _. right. reflexivity.
    + intros c [<-|[<-|[<-|[<-|[<-|[]]]]]]; discriminate.
  - rewrite H6. intros x y Hx Hy. apply ev_keys in Hx as (a & -> & _). apply ev_keys in Hy as (c & -> & _). unfold compare3. cbn.
    destruct (Z.compare_spec a c) as [Hx|Hx|Hx]; split; intros Hy; try congruence; inversion Hy; subst; lia.
Qed.
Lemma ev_apart : apart table_resolve [ev_model].
Proof.
  intros m m' [<-|[]] [<-|[]]. split; [reflexivity|]. intros f Hf. vm_compute in Hf. destruct Hf as [<-|[]]. vm_compute. discriminate.
Qed.
Ltac ev_tables Ht Hu :=
  cbn in Ht, Hu; destruct Ht as [[= <- <-]|[[= <- <-]|[[= <- <-]|[]]]], Hu as [Eu|[Eu|[Eu|[]]]]; try discriminate Eu; injection Eu as <-.
Example ev_gentle : gentle Some sv_schema ev_schema.
Proof.
  constructor;
  [ intros n t u c c' ty Ht Hu Hc Hc' En K; ev_tables Ht Hu; pick Hc; pick Hc'; try discriminate En;
      injection K as <-; eexists; (split; [reflexivity|]); unfold widens; auto
  | intros n t u c c' Ht Hu Hc Hc' En; ev_tables Ht Hu; pick Hc; pick Hc'; try discriminate En;
      (split; [cbn; auto|]; split; [cbn; auto|]); intros f (r & Er & ->); try discriminate Er; exists r; auto
  | intros n c (t & u & Ht & Hu & Hc & N); ev_tables Ht Hu; pick Hc; try (exfalso; apply N, has_column_names; cbn; auto 10; fail);
      (split; [reflexivity|]; split; [reflexivity|]; split; [reflexivity|]; eexists; split; [reflexivity|]; intros v [= <-]; eexists; split; [reflexivity|]; split; [now right|];
       split; [first [exact I|cbn; lia]|]; split; [intros (? & ? & X); discriminate X|]; split; discriminate) ].
Qed.
Lemma wider z : wrap I32 z = z -> wrap I64 z = z.
Proof. intros H. pose proof (wrap_in I32 z) as I. rewrite H in I. apply wrap_id. unfold int_in in *. cbn in *. lia. Qed.
(** The later version can read what is stored. *)
Example ev_evolves : evolves table_resolve post_sem hs_model ev_model.
Proof.
  constructor.
  - vm_compute. reflexivity.
  - vm_compute. split; reflexivity.
  - intros f f2 Hf Hf2 Ec. vm_compute in Hf, Hf2.
    destruct Hf as [<-|[<-|[<-|[<-|[]]]]], Hf2 as [<-|[<-|[<-|[<-|[<-|[]]]]]]; try discriminate Ec; try (left; reflexivity).
    right. intros v u (S1 & S2 & S3). cbn in S2. destruct v; try discriminate S2.
    + exists (existT rust (ROption (RInt I64)) None). vm_compute. auto.
    + match goal with |- exists u2, stands_for _ _ (widened _ (VInt ?z)) u2 => exists (existT rust (ROption (RInt I64)) (Some z)) end. cbn in S3. injection S3 as <-. cbn in S1. injection S1 as S1. unfold stands_for. cbn. rewrite (wider _ S1). auto.
  - intros f2 c v Hf2 N Hc Ec Dv. vm_compute in Hf2. destruct Hf2 as [<-|[<-|[<-|[<-|[<-|[]]]]]];
      try (exfalso; eapply N; [|reflexivity]; vm_compute; auto 10; fail);
      try (exfalso; apply (N (nth 2 (row_fields table_resolve post) (do_pk post_code))); [vm_compute; auto 10|vm_compute; reflexivity]; fail).
    pick Hc; try discriminate Ec. injection Dv as <-. exists (existT rust RString ""%string). vm_compute. auto.
Qed.
Ltac ev_row := intros c Hc; pick Hc; (eexists; split; [vm_compute; reflexivity|]; split;
  [ intros c0 Hc0 En; pick Hc0; try discriminate En; (eexists; split; [vm_compute; reflexivity|]; split; [vm_compute; reflexivity|reflexivity])
  | intros N; first [ exfalso; apply N, has_column_names; cbn; auto 10; fail | eexists; split; reflexivity ] ]).
Example ev_migrated : migrated ex_conv true sv_schema ev_schema (hs_db "bye" hs_tags) ev_db.
Proof.
  assert (TB : forall n, has_table sv_schema n <-> has_table ev_schema n).
  { intros n. split; intros (t & Ht); cbn in Ht; destruct Ht as [[= <- <-]|[[= <- <-]|[[= <- <-]|[]]]]; eexists; cbn; eauto 10. }
  split; [|split; [|split; [|split]]].
  - apply realises_ok. vm_compute. reflexivity.
  - intros n t u Ht Hu. ev_tables Ht Hu; (eexists; eexists; split; [vm_compute; reflexivity|]; split; [vm_compute; reflexivity|]); unfold rows_kept; cbn [b_rows].
    + constructor.
    + constructor; [|constructor]. ev_row.
    + constructor; [ev_row|]. constructor; [ev_row|]. constructor.
  - intros n H N. exfalso. now apply N, TB.
  - intros n H N. exfalso. now apply N, TB.
  - intros n N _. unfold hs_db, sv_db, ev_db. cbn [mget].
    destruct (keqb n "Blog"%string) eqn:E1; [apply keqb_eq in E1; subst n; exfalso; apply N; eexists; cbn; eauto 10|].
    destruct (keqb n "posts"%string) eqn:E2; [apply keqb_eq in E2; subst n; exfalso; apply N; eexists; cbn; eauto 10|].
    destruct (keqb n "posts_tags_Many"%string) eqn:E3; [apply keqb_eq in E3; subst n; exfalso; apply N; eexists; cbn; eauto 10|]. reflexivity.
Qed.
Example ev_after : object_after table_resolve post_sem hs_model ev_model (hs_saved "bye") ev_saved.
Proof.
  constructor.
  - intros f f2 u Hf Hf2 Ec Et Hu. vm_compute in Hf, Hf2.
    destruct Hf as [<-|[<-|[<-|[<-|[]]]]], Hf2 as [<-|[<-|[<-|[<-|[<-|[]]]]]]; try discriminate Ec; try discriminate Et; vm_compute in Hu; injection Hu as <-; vm_compute; reflexivity.
  - intros f f2 v Hf Hf2 Ec (u & Hu & Hv). vm_compute in Hf, Hf2.
    destruct Hf as [<-|[<-|[<-|[<-|[]]]]], Hf2 as [<-|[<-|[<-|[<-|[<-|[]]]]]]; try discriminate Ec; vm_compute in Hu; injection Hu as <-; vm_compute in Hv; injection Hv as <-;
      (eexists; split; [vm_compute; reflexivity|vm_compute; auto]).
  - intros f2 Hf2 N. vm_compute in Hf2. destruct Hf2 as [<-|[<-|[<-|[<-|[<-|[]]]]]];
      try (exfalso; eapply N; [|reflexivity]; vm_compute; auto 10; fail);
      try (exfalso; apply (N (nth 2 (row_fields table_resolve post) (do_pk post_code))); [vm_compute; auto 10|vm_compute; reflexivity]; fail).
    exists (col "body" TText), (VText ""), (existT rust RString ""%string). split; [cbn; auto|]. vm_compute. auto 10.
  - intros f2 k Hf2 (u & Hu & Hv). vm_compute in Hf2. destruct Hf2 as [<-|[]]. vm_compute in Hu. injection Hu as <-. vm_compute in Hv. injection Hv as <-.
    exists (ex_tags_of 1 [] []). vm_compute. auto.
Qed.
(** A post is saved and changed; after the migration the later version finds it with an
    empty body; and there is no other. *)
Definition ev_known : @knowledge rvalue Z := fun n k => if sqlval_dec k (VBigInt 1) then Present ev_saved else Absent.
Example C63_case : exists kn1,
  lived_by Some table_resolve post_sem rv_valid rv_init ddl_kw sqlite_like ex_conv st_veq ex_read true st_engine st_fresh
    (sv_schema, [hs_model]) (sv_db [] [] []) (fun _ _ => Absent) (ev_schema, [ev_model]) ev_db ev_known
  /\ knowledge_after Some table_resolve post_sem sv_schema [hs_model] [ev_model] kn1 ev_known
  /\ kn1 "posts"%string (VBigInt 1) = Present (hs_saved "bye")
  /\ found (X := Z) Some table_resolve post_sem ddl_kw sqlite_like st_engine ev_model (VBigInt 1) ev_db (Present ev_saved)
  /\ found (X := Z) Some table_resolve post_sem ddl_kw sqlite_like st_engine ev_model (VBigInt 2) ev_db Absent.
Proof.
  destruct C58_case as (HC & Hst & FS & _ & _).
  destruct (learns (U := rvalue) (X := Z) (fun _ _ => Absent) hs_model (VBigInt 1) (Present (hs_saved "hello"))) as (kn0 & L0).
  destruct (learns kn0 hs_model (VBigInt 1) (Present (hs_saved "bye"))) as (kn1 & L1).
  assert (H1 : hs_history (sv_db [] [] []) (fun _ _ => Absent) (hs_db "bye" hs_tags) kn1).
  { eapply one_more with (m := hs_model); [now left| |].
    { eapply saved with (o := sv_post None "hello" None ex_new_tags); [exact (sv_fits _ (or_introl eq_refl))|exact sv_numbers|exact HC|exact Hst|exact FS| |exact L0].
      intros (_ & u & Hu & Hv). vm_compute in Hu. injection Hu as <-. discriminate Hv. }
    eapply one_more with (m := hs_model); [now left| |apply no_more].
    eapply saved with (o := hs_saved "bye") (o' := hs_saved "bye"); [exact hs_fits|numbers_tac|vm_compute; reflexivity|exact hs_stores|survive| |exact L1].
    intros _. exists (hs_saved "hello"). exact (proj1 L0). }
  assert (TN : table_name hs_model = "posts"%string) by (vm_compute; reflexivity).
  assert (KN : forall k, kn1 "posts"%string k = if sqlval_dec k (VBigInt 1) then Present (hs_saved "bye") else Absent).
  { intros k. destruct (sqlval_dec k (VBigInt 1)) as [->|Nk]; [rewrite <- TN; exact (proj1 L1)|].
    rewrite (proj2 L1) by auto. now rewrite (proj2 L0) by auto. }
  assert (KA : knowledge_after Some table_resolve post_sem sv_schema [hs_model] [ev_model] kn1 ev_known).
  { intros m2 k [<-|[]] _. left. exists hs_model. split; [now left|]. split; [exact ev_evolves|]. rewrite TN, KN. unfold ev_known.
    destruct (sqlval_dec k (VBigInt 1)); [exact ev_after|exact Logic.I]. }
  assert (VF : version_fine Some table_resolve post_sem ddl_kw sqlite_like ex_conv st_veq ex_read true st_engine (ev_schema, [ev_model]))
    by (split; [intros m [<-|[]]; exact ev_deployed|exact ev_apart]).
  assert (L : lived_by Some table_resolve post_sem rv_valid rv_init ddl_kw sqlite_like ex_conv st_veq ex_read true st_engine st_fresh
    (sv_schema, [hs_model]) (sv_db [] [] []) (fun _ _ => Absent) (ev_schema, [ev_model]) ev_db ev_known).
  { eapply lb_used; [exact H1|]. eapply lb_migrated; [exact VF|exact ev_usable|exact ev_gentle|exact ev_migrated|repeat constructor|exact KA|apply lb_end]. }
  assert (VF0 : version_fine Some table_resolve post_sem ddl_kw sqlite_like ex_conv st_veq ex_read true st_engine (sv_schema, [hs_model]))
    by exact (conj hs_deployed hs_apart).
  destruct (C63_life_partial _ _ _ _ _ _ _ _ _ _ _ _ _ _ _ _ _ _ _ _ _ _ VF0 sv_usable (sr_compares _ _ _ _ _ _ _ (dp_engine _ _ _ _ _ _ _ _ _ _ _ _ _ _ ev_deployed)) sv_kept hs_start L) as [_ AF].
  assert (KK : forall z, (- 2 ^ 63 <= z < 2 ^ 63)%Z -> given_fits Some ev_table (do_pkcol ev_code) (VBigInt z)).
  { intros z Hz. replace (do_pkcol ev_code) with "id"%string by (vm_compute; reflexivity). exists sv_key. split; [cbn; auto|]. split; [reflexivity|].
    exists TBigInt. split; [reflexivity|]. split; [now right|]. split; [exact Hz|]. split; [intros (? & ? & Y); discriminate Y|]. split; discriminate. }
  exists kn1. split; [exact L|]. split; [exact KA|]. split; [now rewrite KN|]. split.
  - exact (AF ev_model (VBigInt 1) (or_introl eq_refl) (KK 1%Z ltac:(lia))).
  - exact (AF ev_model (VBigInt 2) (or_introl eq_refl) (KK 2%Z ltac:(lia))).
Qed.
