(** Property theorem C24: what SQLite's (and Turso's) migration scripts do to a database
    with data in it. *)
From Verif Require Import Base SqlVal Sql Query QuerySpec Adb AdbSpec AdbProofs Literal LiteralSpec LiteralProofs
  Ddl DdlProofs DdlSpec SqliteDdl SqliteDdlProofs DdlFine Backend BackendSpec SqliteSem MigrateSpec MigrateProofs MigrateInv MigrateMain MigrateReady
  Props_Schema Props_Query Props_Filter Props_TursoScript.

(** What the theorems take as given about a pair of schemas and a database. *)
Record migration_case (conv : bool -> list string -> lvalue -> option lvalue) (strict : bool) (old new : ADB) (db : edb) : Prop := {
  mc_old : wf_schema old; mc_new : wf_schema new;
  mc_old_fine : schema_fine old; mc_new_fine : schema_fine new;
  mc_db : msorted db; mc_has : realises conv strict old db;
  mc_defaults : defaults_fine old new;
  mc_exact : forall n c, added_column old new n c -> default_exact c;
  mc_refs : added_unreferring old new;
  mc_temporary : no_temporary new db }.

(** ** C24 *)

(** If the script runs to its end, the database has the new schema and the old data. *)
Theorem C24_schema_and_data_partial : forall kw show read conv veq old new db ops script stmts db',
  quotes_enough kw sqlite_like -> quotes_ddl kw ddl_words -> display_ok read show -> storage_ok conv true read ->
  migration_case conv true old new db ->
  diff_out old new = Ok ops -> sqlite_migration_sql kw show old ops = Ok script ->
  parse_script sqlite_like as_is script = Some stmts -> run conv veq read db stmts = Some db' ->
  migrated conv true old new db db'.
Proof.
  intros kw show read conv veq old new db ops script stmts db' Hq Hd Hs Hst [] E Es Ep Er.
  assert (F : ops_fine old ops) by (now apply (diff_ops_fine old new)).
  destruct (sqlite_script kw show read Hq Hd Hs old ops F) as (s & E1 & P1). assert (s = script) by congruence. subst s.
  assert (stmts = ops_ast show true old ops) by congruence. subst stmts.
  now apply (run_migrates conv veq read show true Hst Hs old new mc_old0 mc_new0 db mc_db0 mc_has0 mc_exact0 mc_refs0 mc_temporary0 ops db' E F Er).
Qed.
Print Assumptions C24_schema_and_data_partial.

(** On a database that is ready for it the script runs to its end. *)
Theorem C24_migration_succeeds_partial : forall kw show read conv veq old new db,
  quotes_enough kw sqlite_like -> quotes_ddl kw ddl_words -> display_ok read show -> storage_ok conv true read ->
  migration_case conv true old new db -> ready conv veq true old new db ->
  exists ops script stmts db',
    diff_out old new = Ok ops /\ sqlite_migration_sql kw show old ops = Ok script
    /\ parse_script sqlite_like as_is script = Some stmts /\ run conv veq read db stmts = Some db'
    /\ migrated conv true old new db db'.
Proof.
  intros kw show read conv veq old new db Hq Hd Hs Hst M R. pose proof M as [].
  assert (E : diff_out old new = Ok (d_all old new)) by apply diff_eq.
  assert (F : ops_fine old (d_all old new)) by (now apply (diff_ops_fine old new)).
  destruct (sqlite_script kw show read Hq Hd Hs old _ F) as (script & E1 & P1).
  destruct (ready_runs conv veq read show true Hst Hs old new mc_old0 mc_new0 mc_old_fine0 mc_new_fine0 mc_defaults0 db mc_db0 mc_has0 mc_exact0 mc_refs0 mc_temporary0 R _ E)
    as (db' & Er).
  exists (d_all old new), script, (ops_ast show true old (d_all old new)), db'.
  split; [exact E|]. split; [exact E1|]. split; [exact P1|]. split; [exact Er|].
  exact (C24_schema_and_data_partial kw show read conv veq old new db _ script _ db' Hq Hd Hs Hst M E E1 P1 Er).
Qed.
Print Assumptions C24_migration_succeeds_partial.

(** The same for Turso, whose statements are sent one by one and whose tables are not STRICT. *)
Theorem C24_turso_partial : forall kw show read conv veq old new db,
  quotes_enough kw sqlite_like -> quotes_ddl kw ddl_words -> display_ok read show -> storage_ok conv false read ->
  migration_case conv false old new db -> defaults_plain old new ->
  exists ops script stmts,
    diff_out old new = Ok ops /\ turso_migration_sql kw show old ops = Ok script
    /\ Forall2 (fun text st => parse_ddl sqlite_like as_is text = Some st) (turso_statements script) stmts
    /\ (forall db', run conv veq read db stmts = Some db' -> migrated conv false old new db db')
    /\ (ready conv veq false old new db -> exists db', run conv veq read db stmts = Some db').
Proof.
  intros kw show read conv veq old new db Hq Hd Hs Hst [] Dp.
  destruct (C26_every_migration_partial kw show read old new Hq Hd Hs) as (ops & script & stmts & E & E1 & P & S); try assumption.
  assert (F : ops_fine old ops) by (now apply (diff_ops_fine old new)).
  destruct (turso_script kw show read Hq Hd Hs old ops F) as (s & E2 & P2). assert (s = script) by congruence. subst s.
  assert (stmts = ops_ast show false old ops) by congruence. subst stmts.
  exists ops, script, (ops_ast show false old ops). split; [exact E|]. split; [exact E1|]. split; [exact S|]. split.
  - intros db' Er. now apply (run_migrates conv veq read show false Hst Hs old new mc_old0 mc_new0 db mc_db0 mc_has0 mc_exact0 mc_refs0 mc_temporary0 ops db' E F Er).
  - intros R. now apply (ready_runs conv veq read show false Hst Hs old new mc_old0 mc_new0 mc_old_fine0 mc_new_fine0 mc_defaults0 db mc_db0 mc_has0 mc_exact0 mc_refs0 mc_temporary0 R ops).
Qed.
Print Assumptions C24_turso_partial.

(** * A case *)

(** Storage classes as in STRICT tables, without conversions of text. *)
Definition ex_conv (strict : bool) (ty : list string) (v : lvalue) : option lvalue :=
  match v with
  | LNull => Some LNull
  | _ =>
    match ty with
    | [w] => if String.eqb w "INTEGER" then match v with LInteger z => Some v | _ => None end
             else if String.eqb w "REAL" then match v with LInteger z => Some (LReal z) | LReal r => Some v | _ => None end
             else if String.eqb w "TEXT" then match v with LText s => Some v | _ => None end
             else if String.eqb w "BLOB" then match v with LBlob s => Some v | _ => None end
             else None
    | _ => None
    end
  end.
Definition ex_veq (a b : lvalue) : bool :=
  match a, b with
  | LInteger x, LInteger y => Z.eqb x y
  | LReal x, LReal y => Z.eqb x y
  | LText x, LText y | LBlob x, LBlob y => String.eqb x y
  | _, _ => false
  end.
Definition ex_read (neg : bool) (n : string) : f64 :=
  if neg && Z.eqb (bits_read true n) 0 then 9223372036854775808%Z else bits_read neg n.
Example ex_display : display_ok ex_read bits_show.
Proof.
  destruct C23_display_case as (D1 & D2 & D3). split; [|split; assumption]. intros r F. destruct (D1 r F) as (neg & n & E & N & Rd).
  destruct (Z.eq_dec r 0) as [->|Nz].
  - exists false, "0"%string. split; [reflexivity|]. split; [exists "0"%char, ""%string; repeat split|reflexivity].
  - exists neg, n. split; [exact E|]. split; [exact N|]. unfold ex_read. destruct neg; [|exact Rd]. rewrite Rd.
    destruct (Z.eqb_spec r 0); [contradiction|reflexivity].
Qed.
Example ex_storage : forall strict, storage_ok ex_conv strict ex_read.
Proof.
  intros strict. constructor; try reflexivity.
  - intros w v v'. unfold ex_conv. destruct v; try (intros [= <-]; reflexivity); (destruct w as [|w [|? ?]]; [discriminate| |discriminate]);
      repeat (match goal with |- context [String.eqb w ?k] => destruct (String.eqb_spec w k) as [->|?] end; [try discriminate; intros [= <-]; reflexivity|]); discriminate.
  - intros neg n z E Nz. cbn. unfold ex_read, bits_read. rewrite E. destruct neg; cbn; [|reflexivity].
    destruct (Z.eqb_spec (- z) 0) as [X|X]; [|reflexivity]. exfalso. apply (Nz eq_refl). lia.
  - intros n E. unfold ex_read, bits_read. rewrite E. cbn. split; [reflexivity|discriminate].
Qed.

(** Deciding that a database has a schema. *)
Definition fkdef_eqb (f g : fkdef) : bool := String.eqb (fk_col f) (fk_col g) && String.eqb (fk_table f) (fk_table g) && String.eqb (fk_ref f) (fk_ref g).
Definition declares_b (c : AColumn) (k : ecol) : bool :=
  String.eqb (k_name k) (c_name c) && (if list_eq_dec string_dec (k_type k) [word c] then true else false)
  && Bool.eqb (k_notnull k) (negb (c_nullable c)) && Bool.eqb (k_pk k) (c_pk c) && Bool.eqb (k_unique k) (c_unique c).
Definition table_is_b (strict : bool) (t : ATable) (b : etab) : bool :=
  Bool.eqb (b_strict b) strict && distinct (map k_name (b_cols b))
  && forallb (fun c => existsb (declares_b c) (b_cols b)) (t_cols t)
  && forallb (fun k => existsb (fun c => declares_b c k) (t_cols t)) (b_cols b)
  && forallb (fun f => existsb (fkdef_eqb f) (flat_map fk_of (t_cols t))) (b_fks b)
  && forallb (fun f => existsb (fkdef_eqb f) (b_fks b)) (flat_map fk_of (t_cols t)).
Definition lvalue_eqb (a b : lvalue) : bool :=
  match a, b with LNull, LNull => true | _, _ => ex_veq a b end.
Definition rows_are_b (conv : bool -> list string -> lvalue -> option lvalue) (strict : bool) (t : ATable) (b : etab) : bool :=
  forallb (fun r : row => distinct (map fst r) && forallb (fun p => existsb (String.eqb (fst p)) (map c_name (t_cols t))) r
    && forallb (fun c => match get r (c_name c) with
                         | Some v => match conv strict [word c] v with Some v' => lvalue_eqb v' v | None => false end
                                     && (c_nullable c || negb (lnull v))
                         | None => false
                         end) (t_cols t)) (b_rows b).
Definition realises_b conv strict (d : ADB) (db : edb) : bool :=
  forallb (fun p => match mget (fst p) db with
                    | Some b => table_is_b strict (snd p) b && rows_are_b conv strict (snd p) b
                    | None => false
                    end) (a_tables d).
Lemma distinct_NoDup l : distinct l = true -> NoDup l.
Proof.
  induction l as [|x l IH]; intros H; constructor; cbn in H; apply andb_true_iff in H as [H1 H2]; [|now apply IH].
  intros X. apply negb_true_iff in H1. assert (existsb (String.eqb x) l = true); [|congruence]. apply existsb_exists. exists x. split; [exact X|apply String.eqb_refl].
Qed.
Lemma fkdef_eqb_eq f g : fkdef_eqb f g = true -> f = g.
Proof. unfold fkdef_eqb. rewrite !andb_true_iff, !String.eqb_eq. destruct f, g. cbn. intros ((-> & ->) & ->). reflexivity. Qed.
Lemma lvalue_eqb_eq a b : lvalue_eqb a b = true -> a = b.
Proof. destruct a, b; cbn; try discriminate; try reflexivity; rewrite ?Z.eqb_eq, ?String.eqb_eq; congruence. Qed.
Lemma declares_b_ok c k : declares_b c k = true -> declares c k.
Proof.
  unfold declares_b. rewrite !andb_true_iff, String.eqb_eq, !Bool.eqb_true_iff. intros ((((H1 & H2) & H3) & H4) & H5).
  destruct (list_eq_dec string_dec (k_type k) [word c]); [|discriminate]. repeat split; assumption.
Qed.
Lemma realises_ok conv strict d db : realises_b conv strict d db = true -> realises conv strict d db.
Proof.
  unfold realises_b. rewrite forallb_forall. intros H n t Hin. specialize (H _ Hin). cbn in H. destruct (mget n db) as [b|]; [|discriminate].
  apply andb_true_iff in H as [T R]. exists b. split; [reflexivity|]. split.
  - unfold table_is_b in T. rewrite !andb_true_iff, Bool.eqb_true_iff, !forallb_forall in T. destruct T as (((((T1 & T2) & T3) & T4) & T5) & T6).
    split; [exact T1|]. split; [now apply distinct_NoDup|]. split; [|split].
    + intros c Hc. specialize (T3 c Hc). apply existsb_exists in T3 as (k & Hk & D). exists k. split; [exact Hk|now apply declares_b_ok].
    + intros k Hk. specialize (T4 k Hk). apply existsb_exists in T4 as (c & Hc & D). exists c. split; [exact Hc|now apply declares_b_ok].
    + intros f. split.
      * intros Hf. specialize (T5 f Hf). apply existsb_exists in T5 as (g & Hg & E). apply fkdef_eqb_eq in E. subst g.
        apply in_flat_map in Hg as (c & Hc & Hg). exists c. split; [exact Hc|]. now apply fk_of_In.
      * intros (c & Hc & Hr). assert (Hf : In f (flat_map fk_of (t_cols t))) by (apply in_flat_map; exists c; split; [exact Hc|now apply fk_of_In]).
        specialize (T6 f Hf). apply existsb_exists in T6 as (g & Hg & E). apply fkdef_eqb_eq in E. now subst g.
  - unfold rows_are_b in R. rewrite forallb_forall in R. intros r Hr. specialize (R r Hr). apply andb_true_iff in R as [R1 R2]. apply andb_true_iff in R1 as [R0 R1].
    rewrite forallb_forall in R1, R2. split; [split; [now apply distinct_NoDup|]|].
    + intros m. split.
      * intros G. unfold get in G. destruct (find (fun p => String.eqb (fst p) m) r) as [p|] eqn:E; [|contradiction G; reflexivity].
        apply find_some in E as [Hp E]. apply String.eqb_eq in E. specialize (R1 p Hp). apply existsb_exists in R1 as (x & Hx & Ex). apply String.eqb_eq in Ex.
        apply in_map_iff in Hx as (c & Ec & Hc). exists c. split; [exact Hc|congruence].
      * intros (c & Hc & <-). specialize (R2 c Hc). cbv beta in R2. destruct (get r (c_name c)); [discriminate|discriminate R2].
    + intros c v Hc G. specialize (R2 c Hc). cbv beta in R2. rewrite G in R2. apply andb_true_iff in R2 as [R2 R3].
      destruct (conv strict [word c] v) as [v'|]; [|discriminate]. apply lvalue_eqb_eq in R2. subst v'. split; [reflexivity|].
      intros En ->. rewrite En in R3. discriminate R3.
Qed.

(** A database without rows, and rows put into it. *)
Definition table_for (strict : bool) (t : ATable) (rows : list row) : etab :=
  {| b_cols := map (fun c => ecol_of (coldef_of c)) (t_cols t); b_fks := flat_map fk_of (t_cols t); b_strict := strict; b_rows := rows |}.
Definition ex_db (strict : bool) : edb :=
  [("blog", table_for strict {| t_name := "blog"; t_cols := [pkcol "id" TBigInt; col "name" TText] |}
      [[("id", LInteger 1); ("name", LText "a")]]);
   ("post", table_for strict {| t_name := "post"; t_cols := [pkcol "id" TInt; col "title" TText; col "likes" TInt] |}
      [[("id", LInteger 7); ("title", LText "t"); ("likes", LInteger 3)]; [("id", LInteger 8); ("title", LText "s"); ("likes", LInteger 0)]])]%string.

Lemma ex_rebuilt n : rebuilt ex_old ex_new n -> n = "post"%string.
Proof. intros (t & u & A & B & _). cbn in A, B. destruct A as [[= <- <-]|[[= <- <-]|[]]]; [|reflexivity]. destruct B as [E|[E|[]]]; discriminate E. Qed.
Lemma ex_added n c : added_column ex_old ex_new n c -> c = col "body" TText.
Proof.
  intros (t & u & Ht & Hu & Hc & Nc). cbn in Ht, Hu.
  destruct Hu as [[= <- <-]|[[= <- <-]|[]]]; destruct Ht as [E|[E|[]]]; try discriminate E; injection E as <-.
  cbn in Hc. destruct Hc as [<-|[<-|[<-|[]]]]; [reflexivity| |]; exfalso; apply Nc;
    [exists (pkcol "id" TInt)|exists (col "title" TText)]; split; cbn; auto.
Qed.
Example ex_case : forall strict, migration_case ex_conv strict ex_old ex_new (ex_db strict).
Proof.
  intros strict. constructor.
  - exact ex_old_wf.
  - exact ex_new_wf.
  - apply ex_fine.
  - apply ex_fine.
  - repeat constructor.
  - apply realises_ok. destruct strict; vm_compute; reflexivity.
  - apply ex_defaults.
  - intros n c A. rewrite (ex_added n c A). intros d [= <-]. split; [exact I|]. intros ty [= <-]. exists CText. split; reflexivity.
  - intros n c A. now rewrite (ex_added n c A).
  - split.
    + intros m b f n G Hf. apply mget_In in G. cbn in G. destruct G as [[= <- <-]|[[= <- <-]|[]]]; destruct Hf.
    + intros m t c f n H Hc (r & Er & ->). cbn in H. destruct H as [[= <- <-]|[[= <- <-]|[]]]; cbn in Hc.
      * destruct Hc as [<-|[<-|[<-|[]]]]; discriminate Er.
      * destruct Hc as [<-|[<-|[]]]; [discriminate Er|]. injection Er as <-. cbn. unfold temporary.
        intros X. assert (Y : String.length "post" = String.length (n ++ "__butane_tmp")) by now rewrite X.
        assert (L : forall a b : string, String.length (a ++ b) = String.length a + String.length b)
          by (induction a as [|x a IH]; intros b; [reflexivity|]; cbn; now rewrite IH).
        rewrite L in Y. cbn in Y. lia.
Qed.
Example ex_ready : forall strict, ready ex_conv ex_veq strict ex_old ex_new (ex_db strict).
Proof.
  intros strict.
  assert (NoFk : forall m b f, mget m (ex_db strict) = Some b -> ~ In f (b_fks b)).
  { intros m b f G Hf. apply mget_In in G. cbn in G. destruct G as [[= <- <-]|[[= <- <-]|[]]]; destruct Hf. }
  constructor.
  - intros n (u & H) No. cbn in H. destruct H as [[= <- <-]|[[= <- <-]|[]]]; [|reflexivity]. exfalso. apply No. eexists. cbn. eauto.
  - intros n R. rewrite (ex_rebuilt n R). split; [reflexivity|]. split; intros (t & H); cbn in H; destruct H as [E|[E|[]]]; discriminate E.
  - intros n u H c c' Hc Hc'. cbn in H. destruct H as [[= <- <-]|[[= <- <-]|[]]]; cbn in Hc, Hc'.
    + destruct Hc as [<-|[<-|[<-|[]]]], Hc' as [<-|[<-|[<-|[]]]]; cbn; congruence.
    + destruct Hc as [<-|[<-|[]]], Hc' as [<-|[<-|[]]]; cbn; congruence.
  - intros n t u c c' A B Hc Hc'. cbn in A, B. destruct A as [[= <- <-]|[[= <- <-]|[]]], B as [[= <-]|[[=]|[]]]; try discriminate. cbn in Hc, Hc'.
    destruct Hc as [<-|[<-|[<-|[]]]], Hc' as [<-|[<-|[<-|[]]]]; cbn; congruence.
  - intros n u H c c' Hc Hc'. cbn in H. destruct H as [[= <- <-]|[[= <- <-]|[]]]; cbn in Hc, Hc'.
    + destruct Hc as [<-|[<-|[]]], Hc' as [<-|[<-|[]]]; cbn; congruence.
    + destruct Hc as [<-|[<-|[<-|[]]]], Hc' as [<-|[<-|[<-|[]]]]; cbn; congruence.
  - intros n c A. rewrite (ex_added n c A). split; [reflexivity|]. split; [reflexivity|]. discriminate.
  - intros n t u c A B Hc Nc _. cbn in A, B. destruct A as [[= <- <-]|[[= <- <-]|[]]], B as [[= <-]|[[=]|[]]]; try discriminate. cbn in Hc.
    destruct Hc as [<-|[<-|[<-|[]]]]; [|split; reflexivity..]. exfalso. apply Nc. exists (pkcol "id" TInt). cbn. auto.
  - intros n _ _ m b f r v p G _ Hf. destruct (NoFk m b f G Hf).
  - intros n m b f r v _ G Hf. destruct (NoFk m b f G Hf).
  - intros n m t u b c f r v _ A B Hc (rl & Er & _). cbn in A, B. destruct A as [[= <- <-]|[[= <- <-]|[]]], B as [[= <-]|[[=]|[]]]; try discriminate. cbn in Hc.
    destruct Hc as [<-|[<-|[<-|[]]]]; discriminate Er.
  - intros n t u c f _ A B Hc (rl & Er & _). exfalso. cbn in A, B. destruct A as [[= <- <-]|[[= <- <-]|[]]], B as [[= <-]|[[=]|[]]]; try discriminate. cbn in Hc.
    destruct Hc as [[<-|[<-|[<-|[]]]]|[<-|[<-|[<-|[]]]]]; discriminate Er.
  - intros n t u b c _ A B G Hc. cbn in A, B. destruct A as [[= <- <-]|[[= <- <-]|[]]], B as [[= <-]|[[=]|[]]]; try discriminate.
    cbn in G. injection G as <-. cbn in Hc.
    assert (K : forall vs, Forall2 (fun r v' => exists v, get r (c_name c) = Some v /\ ex_conv strict [word c] v = Some v')
               (b_rows (table_for strict {| t_name := "post"; t_cols := [pkcol "id" TInt; col "title" TText; col "likes" TInt] |}
      [[("id", LInteger 7); ("title", LText "t"); ("likes", LInteger 3)]; [("id", LInteger 8); ("title", LText "s"); ("likes", LInteger 0)]]%string)) vs ->
             Forall (fun v => v <> LNull) vs -> no_twice ex_veq vs = true -> c_ref c = None -> fits ex_conv ex_veq strict (ex_db strict)
               (table_for strict {| t_name := "post"; t_cols := [pkcol "id" TInt; col "title" TText; col "likes" TInt] |}
      [[("id", LInteger 7); ("title", LText "t"); ("likes", LInteger 3)]; [("id", LInteger 8); ("title", LText "s"); ("likes", LInteger 0)]]%string) c).
    { intros vs H1 H2 H3 H4. exists vs. split; [exact H1|]. split; [intros _; exact H2|]. split; [intros _; exact H3|].
      intros f (rl & Er & _). rewrite H4 in Er. discriminate Er. }
    destruct Hc as [[<-|[<-|[<-|[]]]]|[[<-|[<-|[<-|[]]]] Ho]].
    + apply (K [LInteger 7; LInteger 8]); [repeat constructor; eexists; split; reflexivity|repeat constructor; discriminate|reflexivity|reflexivity].
    + apply (K [LText "t"; LText "s"]); [repeat constructor; eexists; split; reflexivity|repeat constructor; discriminate|reflexivity|reflexivity].
    + apply (K [LInteger 3; LInteger 0]); [repeat constructor; eexists; split; reflexivity|repeat constructor; discriminate|reflexivity|reflexivity].
    + exfalso. destruct Ho as (d & Hd & E). cbn in Hd, E. destruct Hd as [<-|[<-|[<-|[]]]]; discriminate E.
    + apply (K [LInteger 7; LInteger 8]); [repeat constructor; eexists; split; reflexivity|repeat constructor; discriminate|reflexivity|reflexivity].
    + apply (K [LText "t"; LText "s"]); [repeat constructor; eexists; split; reflexivity|repeat constructor; discriminate|reflexivity|reflexivity].
Qed.
(** What the script of this case makes of the database. *)
Example C24_case : exists ops script stmts db', diff_out ex_old ex_new = Ok ops /\ sqlite_migration_sql ddl_kw bits_show ex_old ops = Ok script
  /\ parse_script sqlite_like as_is script = Some stmts /\ run ex_conv ex_veq ex_read (ex_db true) stmts = Some db'
  /\ map fst db' = ["post"; "tag"]%string
  /\ option_map b_rows (mget "post"%string db') = Some
       [[("id", LInteger 7); ("title", LText "t"); ("body", LText "")]; [("id", LInteger 8); ("title", LText "s"); ("body", LText "")]]%string.
Proof.
  eexists. eexists. eexists. eexists. split; [vm_compute; reflexivity|]. split; [vm_compute; reflexivity|]. split; [vm_compute; reflexivity|].
  split; [vm_compute; reflexivity|]. split; vm_compute; reflexivity.
Qed.

(** * Where it fails *)

(** Two schemas that can be declared and a database with the first. *)
Record declared (old new : ADB) (db : edb) : Prop := {
  de_old : wf_schema old; de_new : wf_schema new;
  de_old_fine : schema_fine old; de_new_fine : schema_fine new;
  de_defaults : defaults_fine old new;
  de_db : msorted db; de_has : realises ex_conv true old db }.
(** The script between the two schemas, run on the database. *)
Definition attempt (old new : ADB) (db : edb) : option (option edb) :=
  match diff_out old new with
  | Ok ops => match sqlite_migration_sql ddl_kw bits_show old ops with
              | Ok script => option_map (run ex_conv ex_veq ex_read db) (parse_script sqlite_like as_is script)
              | _ => None
              end
  | _ => None
  end.
Lemma all_defaults_fine old new : (forall n u c, In (n, u) (a_tables new) -> In c (t_cols u) -> default_fine c) -> defaults_fine old new.
Proof. intros H n c (t & u & _ & B & Hc & _). now apply (H n u c). Qed.
Ltac declared_tac :=
  constructor;
  [wf_tac|wf_tac|fine_tac|fine_tac
  |apply all_defaults_fine; let n := fresh "n" in let u := fresh "u" in let c := fresh "c" in let H := fresh "H" in let Hc := fresh "Hc" in
     intros n u c H Hc; cbn in H; repeat (destruct H as [[= <- <-]|H]);
     [(cbn in Hc; repeat (destruct Hc as [<-|Hc]); [(eexists; split; reflexivity)..|destruct Hc])..|destruct H]
  |repeat constructor
  |apply realises_ok; vm_compute; reflexivity].

Definition one (n : string) (cols : list AColumn) : string * ATable := (n, {| t_name := n; t_cols := cols |}).
Definition rows_in (t : string * ATable) (rows : list row) : string * etab := (fst t, table_for true (snd t) rows).
Definition schema (ts : list (string * ATable)) : ADB := {| a_tables := ts; a_types := [] |}.
Definition refcol (n t c : string) : AColumn := with_ref (col n TInt) (Some (RefLiteral {| rl_table := t; rl_column := c |})).
Definition unicol (n : string) (t : SqlType) : AColumn :=
  {| c_name := n; c_type := Known t; c_nullable := false; c_pk := false; c_auto := false; c_unique := true; c_default := None; c_ref := None |}.
Definition mark (n : string) (t : SqlType) (pk : bool) : AColumn :=
  {| c_name := n; c_type := Known t; c_nullable := false; c_pk := pk; c_auto := false; c_unique := false; c_default := None; c_ref := None |}.
Definition optcol (n : string) (t : SqlType) : AColumn :=
  {| c_name := n; c_type := Known t; c_nullable := true; c_pk := false; c_auto := false; c_unique := false; c_default := None; c_ref := None |}.
Local Open Scope string_scope.

(** A column added with a reference has none in the database. *)
Theorem C24_added_reference_lost_refuted : exists old new db db',
  declared old new db /\ attempt old new db = Some (Some db')
  /\ (exists n t c f, In (n, t) (a_tables new) /\ In c (t_cols t) /\ refers c f /\ option_map b_fks (mget n db') = Some [])
  /\ ~ migrated ex_conv true old new db db'.
Proof.
  set (post := one "post" [pkcol "id" TInt]). set (blog := one "blog" [pkcol "id" TInt]).
  exists (schema [blog; post]), (schema [blog; one "post" [pkcol "id" TInt; with_ref (optcol "blog" TInt) (Some (RefLiteral {| rl_table := "blog"; rl_column := "id" |}))]]).
  exists [rows_in blog []; rows_in post [[("id", LInteger 1)]]]. eexists. split; [declared_tac|]. split; [vm_compute; reflexivity|]. split.
  - exists "post". eexists. eexists. eexists. split; [right; left; reflexivity|]. split; [right; left; reflexivity|].
    split; [eexists; split; reflexivity|vm_compute; reflexivity].
  - intros (R & _). destruct (R "post" {| t_name := "post"; t_cols := [pkcol "id" TInt; with_ref (optcol "blog" TInt) (Some (RefLiteral {| rl_table := "blog"; rl_column := "id" |}))] |})
      as (b & G & (_ & _ & _ & _ & T) & _); [right; left; reflexivity|]. cbn in G. injection G as <-.
    assert (X : In {| fk_col := "blog"; fk_table := "blog"; fk_ref := "id" |} []); [|destruct X]. apply T. eexists. split; [right; left; reflexivity|].
    eexists. split; reflexivity.
Qed.
Print Assumptions C24_added_reference_lost_refuted.

(** SQLite refuses to add a column that is UNIQUE, rows or not. *)
Theorem C24_added_unique_refused_refuted : exists old new db,
  declared old new db /\ (forall n b, mget n db = Some b -> b_rows b = []) /\ attempt old new db = Some None.
Proof.
  exists (schema [one "post" [pkcol "id" TInt]]), (schema [one "post" [pkcol "id" TInt; unicol "slug" TText]]).
  exists [rows_in (one "post" [pkcol "id" TInt]) []]. split; [declared_tac|]. split; [|vm_compute; reflexivity].
  intros n b G. apply mget_In in G. destruct G as [[= <- <-]|[]]. reflexivity.
Qed.
Print Assumptions C24_added_unique_refused_refuted.
(** ... and to drop one. *)
Theorem C24_removed_unique_refused_refuted : exists old new db,
  declared old new db /\ (forall n b, mget n db = Some b -> b_rows b = []) /\ attempt old new db = Some None.
Proof.
  exists (schema [one "post" [pkcol "id" TInt; unicol "slug" TText]]), (schema [one "post" [pkcol "id" TInt]]).
  exists [rows_in (one "post" [pkcol "id" TInt; unicol "slug" TText]) []]. split; [declared_tac|]. split; [|vm_compute; reflexivity].
  intros n b G. apply mget_In in G. destruct G as [[= <- <-]|[]]. reflexivity.
Qed.
Print Assumptions C24_removed_unique_refused_refuted.

(** A column of a table that rows of another table refer to cannot be changed: the
    rebuild drops the table. *)
Theorem C24_referred_table_refused_refuted : exists old new db,
  declared old new db /\ attempt old new db = Some None
  /\ (exists t u, In ("blog", t) (a_tables old) /\ In ("blog", u) (a_tables new) /\ map c_name (t_cols t) = map c_name (t_cols u))
  /\ attempt old new (map (fun p => if String.eqb (fst p) "post" then (fst p, with_rows (snd p) []) else p) db) <> Some None.
Proof.
  set (post := one "post" [pkcol "id" TInt; refcol "blog" "blog" "id"]). set (blog := one "blog" [pkcol "id" TInt; col "name" TText]).
  exists (schema [blog; post]), (schema [one "blog" [pkcol "id" TInt; optcol "name" TText]; post]).
  exists [rows_in blog [[("id", LInteger 1); ("name", LText "a")]]; rows_in post [[("id", LInteger 1); ("blog", LInteger 1)]]].
  split; [declared_tac|]. split; [vm_compute; reflexivity|]. split; [|vm_compute; discriminate].
  eexists. eexists. split; [left; reflexivity|]. split; [left; reflexivity|reflexivity].
Qed.
Print Assumptions C24_referred_table_refused_refuted.

(** Two tables that go together cannot go if a row of the second refers to the first:
    tables are dropped in alphabetical order, foreign keys or not. *)
Theorem C24_tables_dropped_in_order_refuted : exists old new db,
  declared old new db /\ a_tables new = [] /\ attempt old new db = Some None.
Proof.
  set (post := one "post" [pkcol "id" TInt; refcol "blog" "blog" "id"]). set (blog := one "blog" [pkcol "id" TInt; col "name" TText]).
  exists (schema [blog; post]), (schema []).
  exists [rows_in blog [[("id", LInteger 1); ("name", LText "a")]]; rows_in post [[("id", LInteger 1); ("blog", LInteger 1)]]].
  split; [declared_tac|]. split; [reflexivity|vm_compute; reflexivity].
Qed.
Print Assumptions C24_tables_dropped_in_order_refuted.
(** Nor can a table together with the column that refers to it: the table is dropped
    before the column. *)
Theorem C24_table_before_reference_refuted : exists old new db,
  declared old new db /\ attempt old new db = Some None
  /\ (forall n t c, In (n, t) (a_tables new) -> In c (t_cols t) -> c_ref c = None).
Proof.
  set (post := one "post" [pkcol "id" TInt; refcol "blog" "blog" "id"]). set (blog := one "blog" [pkcol "id" TInt; col "name" TText]).
  exists (schema [blog; post]), (schema [one "post" [pkcol "id" TInt]]).
  exists [rows_in blog [[("id", LInteger 1); ("name", LText "a")]]; rows_in post [[("id", LInteger 1); ("blog", LInteger 1)]]].
  split; [declared_tac|]. split; [vm_compute; reflexivity|].
  intros n t c [[= <- <-]|[]] [<-|[]]. reflexivity.
Qed.
Print Assumptions C24_table_before_reference_refuted.

(** The primary key cannot move to a column that comes earlier in the alphabet: for a
    while the table would have two. *)
Theorem C24_key_moves_refuted : exists old new db,
  declared old new db /\ (forall n t, In (n, t) (a_tables new) -> one_key t) /\ (forall n b, mget n db = Some b -> b_rows b = [])
  /\ attempt old new db = Some None.
Proof.
  set (old := one "post" [mark "slug" TText true; mark "code" TText false]).
  exists (schema [old]), (schema [one "post" [mark "slug" TText false; mark "code" TText true]]), [rows_in old []].
  split; [declared_tac|]. split; [|split; [|vm_compute; reflexivity]].
  - intros n t [[= <- <-]|[]] c c' [<-|[<-|[]]] [<-|[<-|[]]]; cbn; congruence.
  - intros n b G. apply mget_In in G. destruct G as [[= <- <-]|[]]. reflexivity.
Qed.
Print Assumptions C24_key_moves_refuted.

(** A table of the name a rebuilt table has for a while is in the way. *)
Theorem C24_temporary_name_taken_refuted : exists old new db,
  declared old new db /\ attempt old new db = Some None /\ forall n b, mget n db = Some b -> b_rows b = [].
Proof.
  set (post := one "post" [pkcol "id" TInt; col "title" TText]). set (clash := one "post__butane_tmp" [pkcol "id" TInt]).
  exists (schema [post; clash]), (schema [one "post" [pkcol "id" TInt; optcol "title" TText]; clash]), [rows_in post []; rows_in clash []].
  split; [declared_tac|]. split; [vm_compute; reflexivity|].
  intros n b G. apply mget_In in G. destruct G as [[= <- <-]|[[= <- <-]|[]]]; reflexivity.
Qed.
Print Assumptions C24_temporary_name_taken_refuted.

(** The rows that are there get a timestamp that butane cannot read: it is written with a T. *)
Theorem C24_timestamp_default_refuted : exists old new db db' r v,
  declared old new db /\ attempt old new db = Some (Some db')
  /\ option_map b_rows (mget "post" db') = Some [r] /\ get r "at" = Some v
  /\ (forall json x, sqlite_read json v TTimestamp <> Ok x).
Proof.
  set (post := one "post" [pkcol "id" TInt]).
  exists (schema [post]), (schema [one "post" [pkcol "id" TInt; mark "at" TTimestamp false]]), [rows_in post [[("id", LInteger 1)]]].
  eexists. eexists. eexists. split; [declared_tac|]. split; [vm_compute; reflexivity|]. split; [vm_compute; reflexivity|]. split; [vm_compute; reflexivity|].
  intros json x. vm_compute. discriminate.
Qed.
Print Assumptions C24_timestamp_default_refuted.

(** A column that is numbered automatically and no key: the script is not SQL. *)
Theorem C24_auto_without_key_refuted : exists old new ops script,
  wf_schema old /\ wf_schema new /\ diff_out old new = Ok ops /\ sqlite_migration_sql ddl_kw bits_show old ops = Ok script
  /\ parse_script sqlite_like as_is script = None.
Proof.
  exists (schema []), (schema [one "post" [mark "id" TInt true; {| c_name := "seq"; c_type := Known TInt; c_nullable := false; c_pk := false; c_auto := true;
    c_unique := false; c_default := None; c_ref := None |}]]).
  eexists. eexists. split; [wf_tac|]. split; [wf_tac|]. split; [vm_compute; reflexivity|]. split; [vm_compute; reflexivity|vm_compute; reflexivity].
Qed.
Print Assumptions C24_auto_without_key_refuted.
