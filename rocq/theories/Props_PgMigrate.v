(** Property theorem C25: what PostgreSQL's migration scripts make of a database. *)
From Verif Require Import Base SqlVal Sql Query QuerySpec Adb AdbSpec AdbProofs Literal LiteralSpec LiteralProofs
  Ddl DdlProofs DdlSpec SqliteDdl SqliteDdlProofs DdlFine PgDdl PgSem PgSpec PgDdlProofs PgLocal PgOps PgMain PgReady
  Props_Schema Props_Query Props_Filter Props_TursoScript.

(** What the theorem takes as given about a pair of schemas and a database. *)
Record pg_case (kw : string -> bool) (old new : ADB) (db : pdb) : Prop := {
  gc_old : wf_schema old; gc_new : wf_schema new;
  gc_old_fine : pg_schema_fine old; gc_new_fine : pg_schema_fine new;
  gc_defaults : pg_defaults_fine old new;
  gc_db : msorted db; gc_has : pg_has kw old db;
  gc_change : pg_change old new;
  gc_names : names_clear kw old new db }.

(** ** C25 *)

(** The script can be written and read.  If it runs to its end, whatever the engine
    called the constraints and whatever else it checked, the database has the new schema. *)
Theorem C25_schema_reached_partial : forall d kw show read pick allows old new db,
  quotes_enough kw d -> quotes_ddl kw ddl_words -> key_free d -> display_ok read show -> picks pick ->
  pg_case kw old new db ->
  exists ops script stmts,
    diff_out old new = Ok ops /\ pg_migration_sql kw show old ops = Ok script
    /\ parse_script d lower script = Some stmts
    /\ forall db', prun pick allows db stmts = Some db' -> pg_migrated kw read old new db db'.
Proof.
  intros d kw show read pick allows old new db Hq Hd Hk Hs Hp [].
  pose proof (pg_ops_fine old new gc_old0 gc_new0 gc_old_fine0 gc_new_fine0 gc_defaults0) as F.
  destruct (pg_script d kw show read Hs Hq Hd Hk old _ F) as (script & E & P).
  exists (d_all old new), script. eexists. split; [apply diff_eq|]. split; [exact E|]. split; [exact P|].
  intros db' Er. now apply (pg_run_migrates pick allows Hp kw show read Hs old new gc_old0 gc_new0 gc_old_fine0 gc_new_fine0 gc_defaults0 gc_change0 db gc_db0 gc_has0 gc_names0 db').
Qed.
Print Assumptions C25_schema_reached_partial.

(** If nothing in the catalogue stands in its way, the script does run to its end, unless
    the engine refuses a statement for the sake of the rows: the statements before it have run. *)
Theorem C25_migration_completes_partial : forall d kw show read pick allows old new db,
  quotes_enough kw d -> quotes_ddl kw ddl_words -> key_free d -> display_ok read show -> picks pick ->
  pg_case kw old new db -> pg_ready kw old new db ->
  exists ops script stmts,
    diff_out old new = Ok ops /\ pg_migration_sql kw show old ops = Ok script
    /\ parse_script d lower script = Some stmts
    /\ ((exists db', prun pick allows db stmts = Some db' /\ pg_migrated kw read old new db db')
        \/ exists before x after db1, stmts = before ++ x :: after /\ prun pick allows db before = Some db1 /\ allows db1 x = false).
Proof.
  intros d kw show read pick allows old new db Hq Hd Hk Hs Hp C Rd. destruct (C25_schema_reached_partial d kw show read pick allows old new db Hq Hd Hk Hs Hp C) as (ops & script & stmts & E1 & E2 & E3 & M).
  exists ops, script, stmts. split; [exact E1|]. split; [exact E2|]. split; [exact E3|]. destruct C.
  destruct (pg_runs pick Hp kw show read Hs old new gc_old0 gc_new0 gc_old_fine0 gc_new_fine0 gc_defaults0 gc_change0 db gc_db0 gc_has0 gc_names0 Rd) as [db' E].
  pose proof (pg_ops_fine old new gc_old0 gc_new0 gc_old_fine0 gc_new_fine0 gc_defaults0) as F.
  destruct (pg_script d kw show read Hs Hq Hd Hk old _ F) as (script' & E2' & P). rewrite diff_eq in E1. injection E1 as <-. rewrite E2 in E2'. injection E2' as <-. rewrite E3 in P. injection P as ->.
  destruct (prun_or_refused pick allows _ db db' E) as [R|R]; [left; exists db'; auto|right; exact R].
Qed.
Print Assumptions C25_migration_completes_partial.

(** * A case *)

Example pg_keys_free : key_free pg_like.
Proof.
  assert (U : forall a b, upper (a ++ b) = (upper a ++ upper b)%string) by (induction a as [|x a IH]; intros b; [reflexivity|]; cbn; now rewrite IH).
  set (under := fix under (s : string) : bool := match s with "" => false | String c r => Ascii.eqb c "_" || under r end).
  assert (V : forall a b, under (a ++ b)%string = under a || under b) by (induction a as [|x a IH]; intros b; [reflexivity|]; cbn; now rewrite IH, orb_assoc).
  assert (X : forall l w, forallb (fun s => negb (under s)) l = true -> under w = true -> kmem w l = false).
  { intros l w F Y. unfold kmem. destruct (existsb (keqb w) l) eqn:E; [|reflexivity]. exfalso. apply existsb_exists in E as (x & Hx & E). apply keqb_eq in E. subst x.
    rewrite forallb_forall in F. specialize (F w Hx). rewrite Y in F. discriminate. }
  intros w s Hs. unfold reserved. cbn [d_reserved pg_like]. rewrite U.
  assert (Y : under (upper w ++ upper s)%string = true) by (rewrite V; cbn in Hs; destruct Hs as [<-|[<-|[<-|[]]]]; apply orb_true_r).
  rewrite !X; [reflexivity|reflexivity|exact Y|reflexivity|exact Y].
Qed.
Example pg_kw_ok : quotes_enough ddl_kw pg_like /\ quotes_ddl ddl_kw ddl_words.
Proof.
  unfold ddl_kw. split; intros w H.
  - now rewrite (ex_quotes_pg w H).
  - rewrite H. apply orb_true_r.
Qed.

(** Deciding the hypotheses. *)
Section Decide.
Variable kw : string -> bool.
Notation cat := (cat kw).
Definition pg_declares_b (c : AColumn) (k : pcol) : bool :=
  String.eqb (p_name k) (cat (c_name c)) && (if list_eq_dec string_dec (p_type k) (pg_words c) then true else false)
  && Bool.eqb (p_notnull k) (negb (c_nullable c)) && Bool.eqb (match p_default k with Some DNext => true | _ => false end) (c_auto c).
Definition wanted (c : AColumn) : list pcons :=
  own_of kw c ++ match c_ref c with
                 | Some (RefLiteral r) => [PRef {| fk_col := cat (c_name c); fk_table := cat (rl_table r); fk_ref := cat (rl_column r) |}]
                 | _ => []
                 end.
Definition pcons_eqb (x y : pcons) : bool :=
  match x, y with
  | PKey a, PKey b | PUnique a, PUnique b => String.eqb a b
  | PRef f, PRef g => String.eqb (fk_col f) (fk_col g) && String.eqb (fk_table f) (fk_table g) && String.eqb (fk_ref f) (fk_ref g)
  | _, _ => false
  end.
Fixpoint differ (l : list string) : bool := match l with [] => true | x :: r => negb (existsb (String.eqb x) r) && differ r end.
Definition pg_table_is_b (t : ATable) (b : ptab) : bool :=
  differ (map p_name (p_cols b))
  && forallb (fun c => existsb (pg_declares_b c) (p_cols b)) (t_cols t)
  && forallb (fun k => existsb (fun c => pg_declares_b c k) (t_cols t)) (p_cols b)
  && forallb (fun x => existsb (pcons_eqb x) (flat_map wanted (t_cols t))) (map snd (p_cons b))
  && forallb (fun x => existsb (pcons_eqb x) (map snd (p_cons b))) (flat_map wanted (t_cols t)).
Definition pg_has_b (d : ADB) (db : pdb) : bool :=
  forallb (fun p => match mget (cat (fst p)) db with
                    | Some b => pg_table_is_b (snd p) b && forallb (fun x => String.eqb (fst x) (usual_name (cat (fst p)) (snd x))) (p_cons b)
                    | None => false
                    end) (a_tables d).
Lemma pcons_eqb_eq x y : pcons_eqb x y = true -> x = y.
Proof.
  destruct x as [a|a|[? ? ?]], y as [b|b|[? ? ?]]; cbn; try discriminate; rewrite ?andb_true_iff, ?String.eqb_eq; [congruence..|].
  now intros ((-> & ->) & ->).
Qed.
Lemma differ_NoDup l : differ l = true -> NoDup l.
Proof.
  induction l as [|x l IH]; intros H; constructor; cbn in H; apply andb_true_iff in H as [H1 H2]; [|now apply IH].
  intros X. apply negb_true_iff in H1. assert (existsb (String.eqb x) l = true); [|congruence]. apply existsb_exists. exists x. split; [exact X|apply String.eqb_refl].
Qed.
Lemma pg_declares_b_ok c k : pg_declares_b c k = true -> pg_declares kw c k.
Proof.
  unfold pg_declares_b. rewrite !andb_true_iff, String.eqb_eq, !Bool.eqb_true_iff. intros (((H1 & H2) & H3) & H4).
  destruct (list_eq_dec string_dec (p_type k) (pg_words c)); [|discriminate]. split; [exact H1|]. split; [assumption|]. split; [exact H3|]. rewrite <- H4.
  destruct (p_default k) as [[]|]; split; congruence.
Qed.
Lemma wanted_In c x : In x (wanted c) <-> wants kw c x.
Proof.
  unfold wanted. rewrite in_app_iff, wants_split. apply or_iff_compat_l. unfold pg_refers. destruct (c_ref c) as [[r|r]|].
  - split; [intros [<-|[]]; eauto|]. intros (f & -> & r' & [= <-] & ->). now left.
  - split; [intros []|]. now intros (f & _ & r' & [=] & _).
  - split; [intros []|]. now intros (f & _ & r' & [=] & _).
Qed.
Lemma pg_table_is_ok t b : pg_table_is_b t b = true -> pg_table_is kw t b.
Proof.
  unfold pg_table_is_b. rewrite !andb_true_iff, !forallb_forall. intros ((((T1 & T2) & T3) & T4) & T5).
  split; [now apply differ_NoDup|]. split; [|split].
  - intros c Hc. specialize (T2 c Hc). apply existsb_exists in T2 as (k & Hk & D). exists k. split; [exact Hk|now apply pg_declares_b_ok].
  - intros k Hk. specialize (T3 k Hk). apply existsb_exists in T3 as (c & Hc & D). exists c. split; [exact Hc|now apply pg_declares_b_ok].
  - intros x. split.
    + intros Hx. specialize (T4 x Hx). apply existsb_exists in T4 as (y & Hy & E). apply pcons_eqb_eq in E. subst y.
      apply in_flat_map in Hy as (c & Hc & Hy). exists c. split; [exact Hc|]. now apply wanted_In.
    + intros (c & Hc & W). assert (Hx : In x (flat_map wanted (t_cols t))) by (apply in_flat_map; exists c; split; [exact Hc|now apply wanted_In]).
      specialize (T5 x Hx). apply existsb_exists in T5 as (y & Hy & E). apply pcons_eqb_eq in E. now subst y.
Qed.
Lemma pg_has_ok d db : pg_has_b d db = true -> pg_has kw d db.
Proof.
  unfold pg_has_b. rewrite forallb_forall. intros H n t Hin. specialize (H _ Hin). cbn [fst snd] in H. destruct (mget (cat n) db) as [b|]; [|discriminate].
  apply andb_true_iff in H as [T U]. exists b. split; [reflexivity|]. split; [now apply pg_table_is_ok|].
  rewrite forallb_forall in U. intros m x Hx. specialize (U _ Hx). now apply String.eqb_eq in U.
Qed.

Definition table_names (old new : ADB) : list string := map fst (a_tables old) ++ map fst (a_tables new).
Definition column_names (d : ADB) : list (string * string) := flat_map (fun p => map (fun c => (fst p, c_name c)) (t_cols (snd p))) (a_tables d).
Definition three (n c : string) : list string := [n ++ "_pkey"; n ++ "_" ++ c ++ "_key"; n ++ "_" ++ c ++ "_fkey"]%string.
Definition clear_b (old new : ADB) (db : pdb) : bool :=
  let ts := table_names old new in
  let cs := column_names old ++ column_names new in
  forallb (fun n => forallb (fun m => implb (String.eqb (cat n) (cat m)) (String.eqb n m)) ts) ts
  && forallb (fun p => forallb (fun q => implb (String.eqb (fst p) (fst q) && String.eqb (cat (snd p)) (cat (snd q))) (String.eqb (snd p) (snd q))) cs) cs
  && forallb (fun p => String.eqb (cat (fst p)) (lower (fst p)) && String.eqb (cat (snd p)) (lower (snd p))) cs
  && forallb (fun p => Nat.leb (String.length (cat (fst p) ++ "_" ++ cat (snd p) ++ "_fkey")) 63) cs
  && forallb (fun p => forallb (fun q => implb (String.eqb (cat (fst p) ++ "_" ++ cat (snd p)) (cat (fst q) ++ "_" ++ cat (snd q))) (String.eqb (fst p) (fst q))) cs) cs
  && forallb (fun p => forallb (fun s =>
       forallb (fun m => negb (String.eqb (cat m) s)) ts
       && forallb (fun mb => existsb (fun k => String.eqb (cat k) (fst mb)) ts
                             || (negb (String.eqb (fst mb) s) && forallb (fun y => negb (String.eqb (fst y) s)) (p_cons (snd mb)))) db)
       (three (cat (fst p)) (cat (snd p)))) cs.
Lemma table_names_In old new n : table_named old new n -> In n (table_names old new).
Proof. intros [[t H]|[t H]]; apply in_app_iff; [left|right]; apply (in_map fst _ _ H). Qed.
Lemma column_names_In old new n c : named old new n c -> In (n, c) (column_names old ++ column_names new).
Proof.
  intros (t & H & k & Hk & <-). apply in_app_iff. destruct H as [H|H]; [left|right]; apply in_flat_map; exists (n, t);
    (split; [exact H|]); apply (in_map (fun c => (n, c_name c)) _ _ Hk).
Qed.
Lemma clear_ok old new db : clear_b old new db = true -> names_clear kw old new db.
Proof.
  unfold clear_b. cbv zeta. rewrite !andb_true_iff. intros (((((H1 & H2) & H3) & H4) & H5) & H6). rewrite !forallb_forall in *. constructor.
  - intros n m Hn Hm E. specialize (H1 n (table_names_In _ _ _ Hn)). rewrite forallb_forall in H1. specialize (H1 m (table_names_In _ _ _ Hm)).
    rewrite E, String.eqb_refl in H1. now apply String.eqb_eq.
  - intros n c c' Hc Hc' E. specialize (H2 _ (column_names_In _ _ _ _ Hc)). rewrite forallb_forall in H2. specialize (H2 _ (column_names_In _ _ _ _ Hc')).
    cbn [fst snd] in H2. rewrite E, !String.eqb_refl in H2. now apply String.eqb_eq.
  - intros n c (t & k & Ht & Hk & <- & _). specialize (H3 (n, c_name k)). cbn [fst snd] in H3. rewrite andb_true_iff, !String.eqb_eq in H3. apply H3.
    apply column_names_In. exists t. split; [now left|now exists k].
  - intros n c Hc. specialize (H4 _ (column_names_In _ _ _ _ Hc)). now apply Nat.leb_le in H4.
  - intros n c m c' Hc Hc' E. specialize (H5 _ (column_names_In _ _ _ _ Hc)). rewrite forallb_forall in H5. specialize (H5 _ (column_names_In _ _ _ _ Hc')).
    cbn [fst snd] in H5. rewrite E, String.eqb_refl in H5. now apply String.eqb_eq.
  - intros n c x Hc E. specialize (H6 _ (column_names_In _ _ _ _ Hc)). cbn [fst snd] in H6. rewrite forallb_forall in H6.
    assert (Hi : In (usual_name (cat n) x) (three (cat n) (cat c))) by (destruct x as [y|y|f]; cbn [cons_col] in E; cbn [usual_name]; rewrite ?E; cbn; auto).
    specialize (H6 _ Hi). apply andb_true_iff in H6 as [A B]. rewrite forallb_forall in A, B. split.
    + intros m Hm Em. specialize (A m (table_names_In _ _ _ Hm)). rewrite Em, String.eqb_refl in A. discriminate.
    + intros m b G Nm. apply mget_In in G. specialize (B _ G). cbn [fst snd] in B. apply orb_true_iff in B as [B|B].
      * exfalso. apply existsb_exists in B as (k & Hk & Ek). apply String.eqb_eq in Ek. apply (Nm k); [|exact Ek].
        apply in_app_iff in Hk as [Hk|Hk]; apply in_map_iff in Hk as ([k' t] & <- & Hk); [left|right]; now exists t.
      * apply andb_true_iff in B as [B1 B2]. split; [intros ->; now rewrite String.eqb_refl in B1|]. intros y Hy. rewrite forallb_forall in B2. specialize (B2 _ Hy).
        cbn [fst] in B2. rewrite String.eqb_refl in B2. discriminate.
Qed.
End Decide.

(** A database for a schema. *)
Definition pg_table_for (n : string) (t : ATable) : ptab :=
  {| p_cols := map (fun c => pcol_of (respell_col ddl_kw lower (pg_coldef c))) (t_cols t);
     p_cons := map (fun x => (usual_name (cat ddl_kw n) x, x)) (flat_map (wanted ddl_kw) (t_cols t)) |}.
Definition pg_db (d : ADB) : pdb := map (fun p => (cat ddl_kw (fst p), pg_table_for (fst p) (snd p))) (a_tables d).
(** The script between two schemas, run by an engine that calls constraints as [pick] says. *)
Definition pg_attempt (pick : pdb -> string -> string) (old new : ADB) (db : pdb) : option (option pdb) :=
  match diff_out old new with
  | Ok ops => match pg_migration_sql ddl_kw bits_show old ops with
              | Ok script => option_map (prun pick (fun _ _ => true) db) (parse_script pg_like lower script)
              | _ => None
              end
  | _ => None
  end.
Definition plain_pick (db : pdb) (n : string) : string := n.

Definition mk (n : string) (ty : SqlType) (null pk auto uniq : bool) (def : option SqlVal) (ref : option (string * string)) : AColumn :=
  {| c_name := n; c_type := Known ty; c_nullable := null; c_pk := pk; c_auto := auto; c_unique := uniq; c_default := def;
     c_ref := option_map (fun p => RefLiteral {| rl_table := fst p; rl_column := snd p |}) ref |}.
Definition tab (n : string) (cols : list AColumn) : string * ATable := (n, {| t_name := n; t_cols := cols |}).
Definition sch (ts : list (string * ATable)) : ADB := {| a_tables := ts; a_types := [] |}.
Local Open Scope string_scope.

(** A new table that refers to the kept one, a dropped table, and in the kept table: a
    column that is added, one that is removed, and one each whose type and nullability,
    uniqueness and default, reference and the primary key change. *)
Definition pg_old : ADB := sch [
  tab "author" [mk "id" TBigInt false true true false None None; mk "name" TText false false false false None None];
  tab "group" [mk "id" TInt false true false false None None; mk "post" TInt false false false false None (Some ("post", "id"))];
  tab "post" [mk "author" TBigInt false false false false None None; mk "id" TInt false true false false None None;
              mk "likes" TInt false false false true None None; mk "old" TReal false false false false None None;
              mk "title" TText false false false false (Some (VText "old")) None]].
Definition pg_new : ADB := sch [
  tab "author" [mk "id" TBigInt false true true false None None; mk "name" TText false false false false None None];
  tab "post" [mk "author" TBigInt false false false false None (Some ("author", "id")); mk "body" TText false false false false None None;
              mk "id" TInt false false false true None None; mk "likes" TBigInt true false false false None None;
              mk "title" TText false true false true (Some (VText "new")) None];
  tab "tag" [mk "name" TText false true false false None None; mk "post" TInt false false false false None (Some ("post", "id"))]].

Ltac pg_fine_tac :=
  let n := fresh "n" in let t := fresh "t" in let H := fresh "H" in
  intros n t H; cbn in H; repeat (destruct H as [[= <- <-]|H]);
    [(split; [reflexivity|]; split; [discriminate|];
      repeat (apply Forall_cons;
        [(split; [reflexivity|]; split; [exact Logic.I|]; split;
          [let X := fresh "X" in intros X; (discriminate X || (split; [cbn; auto|reflexivity]))|];
          split; [let X := fresh "X" in intros [X|X]; (discriminate X || reflexivity)|]; cbn; auto)|]);
      apply Forall_nil)..|destruct H].
(** Defaults of all columns have literals: the hypothesis follows. *)
Lemma all_pg_defaults_fine old new : (forall n u c, In (n, u) (a_tables new) -> In c (t_cols u) ->
  default_fine c /\ forall v, c_default c = Some v -> readable_literal v) -> pg_defaults_fine old new.
Proof.
  intros H. split.
  - intros n c (t & u & _ & B & Hc & _). now apply (H n u c).
  - intros n c c' v (t & u & _ & B & _ & Hc & _). now apply (H n u c').
Qed.
Ltac pg_defaults_tac :=
  apply all_pg_defaults_fine; let n := fresh "n" in let u := fresh "u" in let c := fresh "c" in let H := fresh "H" in let Hc := fresh "Hc" in
     intros n u c H Hc; cbn in H; repeat (destruct H as [[= <- <-]|H]);
     [(cbn in Hc; repeat (destruct Hc as [<-|Hc]);
       [(split; [eexists; split; reflexivity|let v := fresh "v" in intros v; cbn; first [discriminate|intros [= <-]; reflexivity]])..|destruct Hc])..|destruct H].

Example pg_ex_case : pg_case ddl_kw pg_old pg_new (pg_db pg_old).
Proof.
  constructor.
  - wf_tac.
  - wf_tac.
  - pg_fine_tac.
  - pg_fine_tac.
  - pg_defaults_tac.
  - repeat constructor.
  - apply pg_has_ok. vm_compute. reflexivity.
  - constructor.
    + intros n t H c c' Hc Hc'. cbn in H. destruct H as [[= <- <-]|[[= <- <-]|[[= <- <-]|[]]]]; cbn in Hc, Hc';
        repeat (destruct Hc as [<-|Hc]); try destruct Hc; repeat (destruct Hc' as [<-|Hc']); try destruct Hc'; cbn; congruence.
    + intros n t H c c' Hc Hc'. cbn in H. destruct H as [[= <- <-]|[[= <- <-]|[[= <- <-]|[]]]]; cbn in Hc, Hc';
        repeat (destruct Hc as [<-|Hc]); try destruct Hc; repeat (destruct Hc' as [<-|Hc']); try destruct Hc'; cbn; congruence.
    + intros n t u c A B Hc Pk. cbn in A, B. destruct A as [[= <- <-]|[[= <- <-]|[[= <- <-]|[]]]], B as [B|[B|[B|[]]]]; try discriminate B; injection B as <-.
      * eexists. split; [left; reflexivity|reflexivity].
      * eexists. split; [cbn; do 4 right; left; reflexivity|reflexivity].
    + intros n c c' (t & u & A & B & Hc & Hc' & E & _). cbn in A, B. destruct A as [[= <- <-]|[[= <- <-]|[[= <- <-]|[]]]], B as [B|[B|[B|[]]]]; try discriminate B; injection B as <-;
        cbn in Hc, Hc'; repeat (destruct Hc as [<-|Hc]); try destruct Hc; repeat (destruct Hc' as [<-|Hc']); try destruct Hc'; cbn in E |- *; congruence.
  - apply clear_ok. vm_compute. reflexivity.
Qed.
Example pg_ex_ready : pg_ready ddl_kw pg_old pg_new (pg_db pg_old).
Proof.
  assert (M : forall d n t c mark, In (n, t) (a_tables d) -> In c (t_cols t) -> mark c = true -> marked ddl_kw d (cat ddl_kw n) (cat ddl_kw (c_name c)) mark) by (intros; exists n, t, c; auto 10).
  assert (A : steady ddl_kw pg_old pg_new "author" "id") by (left; split; eapply (M _ "author" _ (mk "id" TBigInt false true true false None None)); [left; reflexivity|left; reflexivity|reflexivity| left; reflexivity|left; reflexivity|reflexivity]).
  constructor.
  - intros n (t & [[= <- <-]|[[= <- <-]|[[= <- <-]|[]]]]) Ho; [exfalso; apply Ho; eexists; left; reflexivity|exfalso; apply Ho; eexists; do 2 right; left; reflexivity|reflexivity].
  - intros n t c r [[= <- <-]|[[= <- <-]|[[= <- <-]|[]]]] Hn Hc Er.
    + cbn in Hc. repeat (destruct Hc as [<-|Hc]; [discriminate Er|]). destruct Hc.
    + exfalso. destruct Hn as (u & Hu). cbn in Hu. intuition discriminate.
    + cbn in Hc. repeat (destruct Hc as [<-|Hc]; [discriminate Er|]). destruct Hc.
  - intros n t c r [[= <- <-]|[[= <- <-]|[[= <- <-]|[]]]] Hn Hc Er; cbn in Hc.
    + repeat (destruct Hc as [<-|Hc]; [discriminate Er|]). destruct Hc.
    + destruct Hc as [<-|Hc]; [injection Er as <-; left; exact A|]. repeat (destruct Hc as [<-|Hc]; [discriminate Er|]). destruct Hc.
    + exfalso. destruct Hn as (u & Hu). cbn in Hu. intuition discriminate.
  - intros m b f G El. exfalso. apply mget_In in G. cbn in G. destruct G as [[= <- _]|[[= <- _]|[[= <- _]|[]]]].
    + apply (El "author"); [left; eexists; left; reflexivity|reflexivity].
    + apply (El "group"); [left; eexists; right; left; reflexivity|reflexivity].
    + apply (El "post"); [left; eexists; do 2 right; left; reflexivity|reflexivity].
  - intros n t c r [[= <- <-]|[[= <- <-]|[[= <- <-]|[]]]] Hn Hc Er; [exfalso; apply Hn; eexists; left; reflexivity|exfalso; apply Hn; eexists; do 2 right; left; reflexivity|]. cbn in Hc.
    destruct Hc as [<-|[<-|[]]]; [discriminate Er|]. injection Er as <-. right. left.
    eapply (M pg_new "post" _ (mk "id" TInt false false false true None None)); [right; left; reflexivity|cbn; auto|reflexivity].
  - intros n c (t & u & A1 & B & Hc & Nh). cbn in A1, B. destruct A1 as [[= <- <-]|[[= <- <-]|[[= <- <-]|[]]]], B as [B|[B|[B|[]]]]; try discriminate B; injection B as <-;
      cbn in Hc; repeat (destruct Hc as [<-|Hc]); try destruct Hc; try (exfalso; apply Nh; apply has_column_names; cbn; auto 10; fail). split; [reflexivity|discriminate].
  - intros n t c o (t' & u & A1 & B & Hc & Nh) Pk. cbn in A1, B. destruct A1 as [[= <- <-]|[[= <- <-]|[[= <- <-]|[]]]], B as [B|[B|[B|[]]]]; try discriminate B; injection B as <-;
      cbn in Hc; repeat (destruct Hc as [<-|Hc]); try destruct Hc; try discriminate Pk; exfalso; apply Nh; apply has_column_names; cbn; auto 10.
  - intros n c c' (t & u & A1 & B & Hc & Hc' & E & Ns). cbn in A1, B. destruct A1 as [[= <- <-]|[[= <- <-]|[[= <- <-]|[]]]], B as [B|[B|[B|[]]]]; try discriminate B; injection B as <-;
      cbn in Hc, Hc'; repeat (destruct Hc as [<-|Hc]); try destruct Hc; repeat (destruct Hc' as [<-|Hc']); try destruct Hc'; try discriminate E; (split; [|split]); cbn; congruence || discriminate.
Qed.
(** What the script makes of the database. *)
Example C25_case : exists db', pg_attempt plain_pick pg_old pg_new (pg_db pg_old) = Some (Some db')
  /\ map fst db' = ["author"; "post"; "tag"]
  /\ option_map (fun b => map p_name (p_cols b)) (mget "post" db') = Some ["author"; "id"; "likes"; "title"; "body"]
  /\ option_map (fun b => map fst (p_cons b)) (mget "post" db') = Some ["post_author_fkey"; "post_id_key"; "post_pkey"; "post_title_key"].
Proof. eexists. split; [vm_compute; reflexivity|]. split; [vm_compute; reflexivity|]. split; vm_compute; reflexivity. Qed.

(** * Where it fails *)

(** Two schemas that can be declared and a database with the first. *)
Record pg_declared (old new : ADB) (db : pdb) : Prop := {
  gd_old : wf_schema old; gd_new : wf_schema new;
  gd_old_fine : pg_schema_fine old; gd_new_fine : pg_schema_fine new;
  gd_defaults : pg_defaults_fine old new;
  gd_db : msorted db; gd_has : pg_has ddl_kw old db }.
Ltac pg_declared_tac :=
  constructor; [wf_tac|wf_tac|pg_fine_tac|pg_fine_tac|pg_defaults_tac|repeat constructor|apply pg_has_ok; vm_compute; reflexivity].

(** A column that becomes automatically numbered is not: no statement is written. *)
Theorem C25_auto_ignored_refuted : exists old new,
  pg_declared old new (pg_db old) /\ names_clear ddl_kw old new (pg_db old) /\ ~ same_schema old new
  /\ pg_attempt plain_pick old new (pg_db old) = Some (Some (pg_db old)) /\ ~ pg_has ddl_kw new (pg_db old).
Proof.
  exists (sch [tab "post" [mk "id" TInt false true false false None None]]), (sch [tab "post" [mk "id" TInt false true true false None None]]).
  split; [pg_declared_tac|]. split; [apply clear_ok; vm_compute; reflexivity|]. split; [|split; [vm_compute; reflexivity|]].
  - intros (S & _). destruct (S _ _ (or_introl eq_refl)) as (u & [[= <-]|[]] & _ & S1 & _). destruct (S1 _ (or_introl eq_refl)) as (c' & [<-|[]] & Sc). pose proof (sc_auto _ _ Sc). discriminate.
  - intros H. destruct (H _ _ (or_introl eq_refl)) as (b & G & (_ & T & _) & _). vm_compute in G. injection G as <-.
    destruct (T _ (or_introl eq_refl)) as (k & [<-|[]] & _ & _ & _ & A). destruct A as [_ A]. discriminate (A eq_refl).
Qed.
Print Assumptions C25_auto_ignored_refuted.

(** SERIAL is not a type a column can be changed to. *)
Theorem C25_auto_retyped_refuted : exists old new,
  pg_declared old new (pg_db old) /\ names_clear ddl_kw old new (pg_db old) /\ pg_attempt plain_pick old new (pg_db old) = Some None.
Proof.
  exists (sch [tab "post" [mk "id" TInt false true true false None None]]), (sch [tab "post" [mk "id" TBigInt false true true false None None]]).
  split; [pg_declared_tac|]. split; [apply clear_ok|]; vm_compute; reflexivity.
Qed.
Print Assumptions C25_auto_retyped_refuted.

(** An automatically numbered column cannot be added: the statement gives it a second default. *)
Theorem C25_auto_added_refuted : exists old new,
  pg_declared old new (pg_db old) /\ names_clear ddl_kw old new (pg_db old) /\ pg_change old new /\ pg_attempt plain_pick old new (pg_db old) = Some None.
Proof.
  exists (sch [tab "post" [mk "id" TInt false true false false None None]]),
    (sch [tab "post" [mk "id" TInt false true false false None None; mk "seq" TInt false false true false None None]]).
  split; [pg_declared_tac|]. split; [apply clear_ok; vm_compute; reflexivity|]. split; [|vm_compute; reflexivity].
  constructor.
  - intros n t [[= <- <-]|[]] c c' [<-|[]] [<-|[]]. reflexivity.
  - intros n t [[= <- <-]|[]] c c' [<-|[<-|[]]] [<-|[<-|[]]]; cbn; congruence.
  - intros n t u c [[= <- <-]|[]] [[= <-]|[]] _ _. eexists. split; [left; reflexivity|reflexivity].
  - intros n c c' (t & u & [[= <- <-]|[]] & [[= <-]|[]] & [<-|[]] & [<-|[<-|[]]] & E & Ns); [reflexivity|discriminate E].
Qed.
Print Assumptions C25_auto_added_refuted.

(** A primary key that is given up stays in the database. *)
Theorem C25_key_stays_refuted : exists old new,
  pg_declared old new (pg_db old) /\ names_clear ddl_kw old new (pg_db old)
  /\ pg_attempt plain_pick old new (pg_db old) = Some (Some (pg_db old)) /\ ~ pg_has ddl_kw new (pg_db old).
Proof.
  exists (sch [tab "post" [mk "id" TInt false true false false None None]]), (sch [tab "post" [mk "id" TInt false false false false None None]]).
  split; [pg_declared_tac|]. split; [apply clear_ok; vm_compute; reflexivity|]. split; [vm_compute; reflexivity|].
  intros H. destruct (H _ _ (or_introl eq_refl)) as (b & G & (_ & _ & _ & T) & _). vm_compute in G. injection G as <-.
  destruct (proj1 (T (PKey "id")) (or_introl eq_refl)) as (c & [<-|[]] & [=] & _).
Qed.
Print Assumptions C25_key_stays_refuted.

(** A primary key column cannot take the place of another: it is added before the other is removed. *)
Theorem C25_key_replaced_refuted : exists old new,
  pg_declared old new (pg_db old) /\ names_clear ddl_kw old new (pg_db old) /\ pg_change old new /\ pg_attempt plain_pick old new (pg_db old) = Some None.
Proof.
  exists (sch [tab "post" [mk "id" TInt false true false false None None]]), (sch [tab "post" [mk "key" TText false true false false None None]]).
  split; [pg_declared_tac|]. split; [apply clear_ok; vm_compute; reflexivity|]. split; [|vm_compute; reflexivity].
  constructor.
  - intros n t [[= <- <-]|[]] c c' [<-|[]] [<-|[]]. reflexivity.
  - intros n t [[= <- <-]|[]] c c' [<-|[]] [<-|[]]. reflexivity.
  - intros n t u c [[= <- <-]|[]] [[= <-]|[]] _ _. eexists. split; [left; reflexivity|reflexivity].
  - intros n c c' (t & u & [[= <- <-]|[]] & [[= <-]|[]] & [<-|[]] & [<-|[]] & E & Ns). discriminate E.
Qed.
Print Assumptions C25_key_replaced_refuted.

(** The former primary key cannot become nullable while it is the primary key. *)
Theorem C25_former_key_nullable_refuted : exists old new,
  pg_declared old new (pg_db old) /\ names_clear ddl_kw old new (pg_db old) /\ pg_change old new /\ pg_attempt plain_pick old new (pg_db old) = Some None.
Proof.
  exists (sch [tab "post" [mk "id" TInt false true false false None None; mk "key" TText false false false false None None]]),
    (sch [tab "post" [mk "id" TInt true false false false None None; mk "key" TText false true false false None None]]).
  split; [pg_declared_tac|]. split; [apply clear_ok; vm_compute; reflexivity|]. split; [|vm_compute; reflexivity].
  constructor.
  - intros n t [[= <- <-]|[]] c c' [<-|[<-|[]]] [<-|[<-|[]]]; cbn; congruence.
  - intros n t [[= <- <-]|[]] c c' [<-|[<-|[]]] [<-|[<-|[]]]; cbn; congruence.
  - intros n t u c [[= <- <-]|[]] [[= <-]|[]] _ _. eexists. split; [right; left; reflexivity|reflexivity].
  - intros n c c' (t & u & [[= <- <-]|[]] & [[= <-]|[]] & [<-|[<-|[]]] & [<-|[<-|[]]] & E & Ns); reflexivity || discriminate E.
Qed.
Print Assumptions C25_former_key_nullable_refuted.

(** A table that is called by a keyword with capital letters: the constraint is looked
    for under another name than the engine gave it. *)
Theorem C25_capital_keyword_refuted : exists old new,
  pg_declared old new (pg_db old) /\ pg_change old new
  /\ pg_attempt plain_pick (sch []) old [] = Some (Some (pg_db old)) /\ pg_attempt plain_pick old new (pg_db old) = Some None.
Proof.
  exists (sch [tab "User" [mk "name" TText false false false true None None]]), (sch [tab "User" [mk "name" TText false false false false None None]]).
  split; [pg_declared_tac|]. split; [|split; vm_compute; reflexivity].
  constructor.
  - intros n t [[= <- <-]|[]] c c' [<-|[]] [<-|[]]. reflexivity.
  - intros n t [[= <- <-]|[]] c c' [<-|[]] [<-|[]]. reflexivity.
  - intros n t u c [[= <- <-]|[]] _ [<-|[]] [=].
  - intros n c c' (t & u & [[= <- <-]|[]] & [[= <-]|[]] & [<-|[]] & [<-|[]] & _). reflexivity.
Qed.
Print Assumptions C25_capital_keyword_refuted.

(** A new table's columns have no default, whatever the schema says; a column that is
    added has one although the schema says nothing. *)
Theorem C25_default_not_created_refuted : exists new db c k,
  pg_declared (sch []) new [] /\ pg_attempt plain_pick (sch []) new [] = Some (Some db)
  /\ (exists t, In ("post", t) (a_tables new) /\ In c (t_cols t)) /\ c_default c = Some (VInt 7)
  /\ (exists b, mget "post" db = Some b /\ pcol_at b (c_name c) = Some k) /\ p_default k = None.
Proof.
  exists (sch [tab "post" [mk "id" TInt false true false false None None; mk "likes" TInt false false false false (Some (VInt 7)) None]]).
  eexists. eexists. eexists. split; [pg_declared_tac|]. split; [vm_compute; reflexivity|].
  split; [eexists; split; [left; reflexivity|right; left; reflexivity]|]. split; [reflexivity|]. split; [eexists; split; vm_compute; reflexivity|reflexivity].
Qed.
Print Assumptions C25_default_not_created_refuted.
Theorem C25_default_invented_refuted : exists old new db' c k,
  pg_declared old new (pg_db old) /\ pg_attempt plain_pick old new (pg_db old) = Some (Some db')
  /\ (exists t, In ("post", t) (a_tables new) /\ In c (t_cols t)) /\ c_default c = None
  /\ (exists b, mget "post" db' = Some b /\ pcol_at b (c_name c) = Some k) /\ p_default k = Some (DLit (LitNum false "0")).
Proof.
  exists (sch [tab "post" [mk "id" TInt false true false false None None]]),
    (sch [tab "post" [mk "id" TInt false true false false None None; mk "likes" TInt false false false false None None]]).
  eexists. eexists. eexists. split; [pg_declared_tac|]. split; [vm_compute; reflexivity|].
  split; [eexists; split; [left; reflexivity|right; left; reflexivity]|]. split; [reflexivity|]. split; [eexists; split; vm_compute; reflexivity|reflexivity].
Qed.
Print Assumptions C25_default_invented_refuted.

(** A table and the column that refers to it cannot go together: the table goes first. *)
Theorem C25_referred_table_refuted : exists old new,
  pg_declared old new (pg_db old) /\ names_clear ddl_kw old new (pg_db old) /\ pg_change old new /\ pg_attempt plain_pick old new (pg_db old) = Some None.
Proof.
  exists (sch [tab "blog" [mk "id" TInt false true false false None None];
               tab "post" [mk "blog" TInt false false false false None (Some ("blog", "id")); mk "id" TInt false true false false None None]]),
    (sch [tab "post" [mk "id" TInt false true false false None None]]).
  split; [pg_declared_tac|]. split; [apply clear_ok; vm_compute; reflexivity|]. split; [|vm_compute; reflexivity].
  constructor.
  - intros n t [[= <- <-]|[[= <- <-]|[]]] c c'; [intros [<-|[]] [<-|[]]|intros [<-|[<-|[]]] [<-|[<-|[]]]]; cbn; congruence.
  - intros n t [[= <- <-]|[]] c c' [<-|[]] [<-|[]]. reflexivity.
  - intros n t u c [[= <- <-]|[[= <- <-]|[]]] [[= <-]|[]] _ _. eexists. split; [left; reflexivity|reflexivity].
  - intros n c c' (t & u & [[= <- <-]|[[= <- <-]|[]]] & [[= <-]|[]] & [<-|[<-|[]]] & [<-|[]] & E & Ns); [discriminate E|reflexivity].
Qed.
Print Assumptions C25_referred_table_refuted.

(** A column of bytes with a default cannot be added. *)
Theorem C25_bytes_default_refuted : exists old new,
  pg_declared old new (pg_db old) /\ names_clear ddl_kw old new (pg_db old) /\ pg_change old new /\ pg_attempt plain_pick old new (pg_db old) = Some None.
Proof.
  exists (sch [tab "post" [mk "id" TInt false true false false None None]]),
    (sch [tab "post" [mk "data" TBlob false false false false None None; mk "id" TInt false true false false None None]]).
  split; [pg_declared_tac|]. split; [apply clear_ok; vm_compute; reflexivity|]. split; [|vm_compute; reflexivity].
  constructor.
  - intros n t [[= <- <-]|[]] c c' [<-|[]] [<-|[]]. reflexivity.
  - intros n t [[= <- <-]|[]] c c' [<-|[<-|[]]] [<-|[<-|[]]]; cbn; congruence.
  - intros n t u c [[= <- <-]|[]] [[= <-]|[]] _ _. eexists. split; [right; left; reflexivity|reflexivity].
  - intros n c c' (t & u & [[= <- <-]|[]] & [[= <-]|[]] & [<-|[]] & [<-|[<-|[]]] & E & Ns); [discriminate E|reflexivity].
Qed.
Print Assumptions C25_bytes_default_refuted.

(** An engine that numbers names that are taken and shortens those that are long. *)
Fixpoint stem (k : nat) (s : string) : string :=
  match k, s with Datatypes.S k', String c r => String c (stem k' r) | _, _ => "" end.
Definition busy (db : pdb) (n : string) : bool :=
  existsb (fun k => match mget k db with
                    | Some b => String.eqb k n || existsb (fun x => String.eqb (fst x) n) (p_cons b)
                    | None => false
                    end) (map fst db).
Definition careful_pick (db : pdb) (n : string) : string :=
  if Nat.leb (String.length n) 63 then if busy db n then n ++ "1" else n else stem 59 n ++ "_key".
Example careful_picks : picks careful_pick.
Proof.
  intros db n F L. unfold careful_pick. apply Nat.leb_le in L. rewrite L. destruct (busy db n) eqn:E; [|reflexivity]. exfalso. apply F.
  unfold busy in E. apply existsb_exists in E as (k & _ & E). destruct (mget k db) as [b|] eqn:G; [|discriminate]. apply orb_true_iff in E as [E|E].
  - apply String.eqb_eq in E. subst k. left. congruence.
  - apply existsb_exists in E as ([m x] & Hx & E). cbn in E. apply String.eqb_eq in E. subst m. right. eauto.
Qed.
(** Two constraints whose usual names are the same: the second is later not found. *)
Theorem C25_names_collide_refuted : exists old new db,
  wf_schema old /\ wf_schema new /\ pg_schema_fine old /\ pg_schema_fine new /\ pg_change old new
  /\ pg_attempt careful_pick (sch []) old [] = Some (Some db) /\ pg_attempt careful_pick old new db = Some None.
Proof.
  exists (sch [tab "a" [mk "b_c" TText false false false true None None]; tab "a_b" [mk "c" TText false false false true None None]]),
    (sch [tab "a" [mk "b_c" TText false false false true None None]; tab "a_b" [mk "c" TText false false false false None None]]). eexists.
  split; [wf_tac|]. split; [wf_tac|]. split; [pg_fine_tac|]. split; [pg_fine_tac|]. split; [|split; vm_compute; reflexivity].
  constructor.
  - intros n t [[= <- <-]|[[= <- <-]|[]]] c c' [<-|[]] [<-|[]]; reflexivity.
  - intros n t [[= <- <-]|[[= <- <-]|[]]] c c' [<-|[]] [<-|[]]; reflexivity.
  - intros n t u c [[= <- <-]|[[= <- <-]|[]]] _ [<-|[]] [=].
  - intros n c c' (t & u & [[= <- <-]|[[= <- <-]|[]]] & [[= <-]|[[= <-]|[]]] & [<-|[]] & [<-|[]] & _); reflexivity.
Qed.
Print Assumptions C25_names_collide_refuted.
(** A constraint whose usual name is too long: it is later not found. *)
Definition long_name := "a_column_with_a_name_of_sixty_one_bytes_as_postgresql_allows_i".
Theorem C25_long_name_refuted : exists old new db,
  wf_schema old /\ wf_schema new /\ pg_schema_fine old /\ pg_schema_fine new /\ pg_change old new
  /\ pg_attempt careful_pick (sch []) old [] = Some (Some db) /\ pg_attempt careful_pick old new db = Some None.
Proof.
  exists (sch [tab "a" [mk long_name TText false false false true None None]]), (sch [tab "a" [mk long_name TText false false false false None None]]). eexists.
  split; [wf_tac|]. split; [wf_tac|]. split; [pg_fine_tac|]. split; [pg_fine_tac|]. split; [|split; vm_compute; reflexivity].
  constructor.
  - intros n t [[= <- <-]|[]] c c' [<-|[]] [<-|[]]. reflexivity.
  - intros n t [[= <- <-]|[]] c c' [<-|[]] [<-|[]]. reflexivity.
  - intros n t u c [[= <- <-]|[]] _ [<-|[]] [=].
  - intros n c c' (t & u & [[= <- <-]|[]] & [[= <-]|[]] & [<-|[]] & [<-|[]] & _). reflexivity.
Qed.
Print Assumptions C25_long_name_refuted.
