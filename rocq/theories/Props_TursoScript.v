(** Property theorem C26: Turso executes a script as the statements it was made of. *)
From Verif Require Import Base SqlVal Sql Query QuerySpec Adb AdbSpec AdbProofs Literal LiteralSpec LiteralProofs
  Ddl DdlProofs DdlSpec SqliteDdl SqliteDdlProofs DdlFine Props_Schema Props_Query Props_Filter.

(** SQLite's tables are STRICT, Turso's are not. *)
Definition not_strict (x : ddl) : ddl :=
  match x with CreateTable b t cs fs _ => CreateTable b t cs fs false | _ => x end.
Definition as_is (s : string) : string := s.

Lemma not_strict_ast show current op : map not_strict (op_ast show true current op) = op_ast show false current op.
Proof.
  destruct op as [t|t|t|n|n c|n cn|n oc nc|t]; try reflexivity; cbn.
  - now destruct (column_default c).
  - destruct (get_table current n) as [tb|]; [|reflexivity]. destruct (col_by_name (t_cols tb) cn) as [c|]; [|reflexivity].
    now destruct (c_ref c).
  - now destruct (get_table current n).
Qed.
Lemma not_strict_asts show ops : forall current, map not_strict (ops_ast show true current ops) = ops_ast show false current ops.
Proof. induction ops as [|o r IH]; intros current; [reflexivity|]. cbn. now rewrite map_app, not_strict_ast, IH. Qed.

Section Both.
Variable kw : string -> bool.
Variable show : f64 -> string.
Variable read : bool -> string -> f64.
Hypothesis Hq : quotes_enough kw sqlite_like.
Hypothesis Hd : quotes_ddl kw ddl_words.
Hypothesis Hs : display_ok read show.

Lemma sqlite_script current ops : ops_fine current ops ->
  exists script, sqlite_migration_sql kw show current ops = Ok script
    /\ parse_script sqlite_like as_is script = Some (ops_ast show true current ops).
Proof.
  intros F. destruct (script_parses sqlite_like kw show read Hs true [] (sqlite_create_table kw) (sqlite_copy_table kw) (sqlite_change_column kw)
    (sqlite_create_statement sqlite_like kw) (sqlite_copy_statement sqlite_like kw) (fun _ _ _ _ => eq_refl) Hq Hd (or_introl eq_refl) current ops F)
    as (l & E & P).
  exists (script_of_lines l). split; [|exact P]. unfold sqlite_migration_sql, sqlite_sql_for_op. now rewrite E.
Qed.
Lemma turso_script current ops : ops_fine current ops ->
  exists script, turso_migration_sql kw show current ops = Ok script
    /\ parse_script sqlite_like as_is script = Some (ops_ast show false current ops).
Proof.
  intros F. destruct (script_parses sqlite_like kw show read Hs false [TComma] (turso_create_table kw) (turso_copy_table kw) (turso_change_column kw)
    (turso_create_statement sqlite_like kw) (turso_copy_statement sqlite_like kw) (fun _ _ _ _ => eq_refl) Hq Hd (or_intror eq_refl) current ops F)
    as (l & E & P).
  exists (script_of_lines l). split; [|exact P]. unfold turso_migration_sql, turso_sql_for_op. now rewrite E.
Qed.
Lemma turso_split current ops script : ops_fine current ops -> Forall default_plain ops -> turso_migration_sql kw show current ops = Ok script ->
  Forall2 (fun text x => parse_ddl sqlite_like as_is text = Some x /\ parse_ddl sqlite_like as_is (text ++ ";") = Some x)
          (turso_statements script) (ops_ast show false current ops).
Proof.
  intros F P E. destruct (script_splits sqlite_like kw show read Hs false [TComma] (turso_create_table kw) (turso_copy_table kw) (turso_change_column kw)
    (turso_create_statement sqlite_like kw) (turso_copy_statement sqlite_like kw) (fun _ _ _ _ => eq_refl) Hq Hd (or_intror eq_refl) current ops F P)
    as (l & E' & S).
  unfold turso_migration_sql, turso_sql_for_op in E. rewrite E' in E. injection E as <-. exact S.
Qed.
End Both.

(** ** C26 *)

(** Any list of operations that can be written.  What Turso sends, one by one, are the
    statements of the script read as a whole, and up to STRICT the statements of
    SQLite's script, which breaks its lines elsewhere. *)
Theorem C26_statements_recovered_partial : forall kw show read current ops,
  quotes_enough kw sqlite_like -> quotes_ddl kw ddl_words -> display_ok read show ->
  ops_fine current ops -> Forall default_plain ops ->
  exists script stmts,
    turso_migration_sql kw show current ops = Ok script
    /\ parse_script sqlite_like as_is script = Some stmts
    /\ Forall2 (fun text st => parse_ddl sqlite_like as_is text = Some st) (turso_statements script) stmts
    /\ exists script' stmts', sqlite_migration_sql kw show current ops = Ok script'
         /\ parse_script sqlite_like as_is script' = Some stmts' /\ stmts = map not_strict stmts'.
Proof.
  intros kw show read current ops Hq Hd Hs F P. destruct (turso_script kw show read Hq Hd Hs current ops F) as (script & E & Ps).
  exists script, (ops_ast show false current ops). split; [exact E|]. split; [exact Ps|]. split.
  - pose proof (turso_split kw show read Hq Hd Hs current ops script F P E) as S. clear - S. induction S as [|a b l m [H _] S IH]; constructor; assumption.
  - destruct (sqlite_script kw show read Hq Hd Hs current ops F) as (script' & E' & Ps'). exists script', (ops_ast show true current ops).
    split; [exact E'|]. split; [exact Ps'|]. symmetry. apply not_strict_asts.
Qed.
Print Assumptions C26_statements_recovered_partial.

(** The script between any two schemas that can be declared. *)
Theorem C26_every_migration_partial : forall kw show read old new,
  quotes_enough kw sqlite_like -> quotes_ddl kw ddl_words -> display_ok read show ->
  wf_schema old -> wf_schema new -> schema_fine old -> schema_fine new -> defaults_fine old new -> defaults_plain old new ->
  exists ops script stmts, diff_out old new = Ok ops
    /\ turso_migration_sql kw show old ops = Ok script
    /\ parse_script sqlite_like as_is script = Some stmts
    /\ Forall2 (fun text st => parse_ddl sqlite_like as_is text = Some st) (turso_statements script) stmts.
Proof.
  intros kw show read old new Hq Hd Hs Wo Wn Fo Fn Df Dp. exists (d_all old new).
  assert (F : ops_fine old (d_all old new)) by (apply (diff_ops_fine old new Wo Wn Fo Fn Df), diff_eq).
  destruct (C26_statements_recovered_partial kw show read old (d_all old new) Hq Hd Hs F) as (script & stmts & E & P & S & _).
  - apply Forall_forall. intros op Hop. apply diff_In in Hop; [|assumption..]. destruct op; try exact I. cbn. intros s. apply (Dp t c s). exact Hop.
  - exists script, stmts. split; [apply diff_eq|]. split; [exact E|]. split; [exact P|exact S].
Qed.
Print Assumptions C26_every_migration_partial.

(** A keyword list, two schemas: one table is new, one is dropped, and in the kept one a
    column is added, one removed and one changed. *)
Definition ddl_kw (w : string) : bool := ex_kw w || kmem (upper w) ddl_words.
Example ddl_kw_ok : quotes_enough ddl_kw sqlite_like /\ quotes_ddl ddl_kw ddl_words.
Proof.
  unfold ddl_kw. split; intros w H.
  - now rewrite (ex_quotes_sqlite w H).
  - rewrite H. apply orb_true_r.
Qed.
Ltac fine_tac :=
  intros n t H; cbn in H; repeat (destruct H as [[= <- <-]|H]);
    [(split; [reflexivity|]; split; [discriminate|];
      repeat (apply Forall_cons;
        [split; [reflexivity|]; split; [eexists; split; [reflexivity|discriminate]|]; split; [intros X; (reflexivity || discriminate X)|]; cbn; auto|]);
      apply Forall_nil)..|destruct H].
Example ex_fine : schema_fine ex_old /\ schema_fine ex_new.
Proof. split; fine_tac. Qed.
Example ex_defaults : defaults_fine ex_old ex_new /\ defaults_plain ex_old ex_new.
Proof.
  assert (A : forall n c, added_column ex_old ex_new n c -> c = col "body" TText).
  { intros n c (t & u & Ht & Hu & Hc & Nc). cbn in Ht, Hu.
    destruct Hu as [[= <- <-]|[[= <- <-]|[]]]; destruct Ht as [E|[E|[]]]; try discriminate E; injection E as <-.
    cbn in Hc. destruct Hc as [<-|[<-|[<-|[]]]]; [reflexivity| |]; exfalso; apply Nc;
      [exists (pkcol "id" TInt)|exists (col "title" TText)]; split; cbn; auto. }
  split.
  - intros n c H. rewrite (A n c H). eexists. split; reflexivity.
  - intros n c s H. rewrite (A n c H). intros [= <-]. reflexivity.
Qed.
Example C26_case : exists ops script, diff_out ex_old ex_new = Ok ops /\ turso_migration_sql ddl_kw bits_show ex_old ops = Ok script
  /\ List.length (turso_statements script) = 8%nat /\ ops_fine ex_old ops /\ Forall default_plain ops
  /\ nth_error (turso_statements script) 7 = Some "ALTER TABLE post__butane_tmp RENAME TO post"%string.
Proof.
  destruct ex_fine as [Fo Fn]. destruct ex_defaults as [Df Dp].
  exists (d_all ex_old ex_new). eexists. split; [apply diff_eq|]. split; [vm_compute; reflexivity|].
  split; [vm_compute; reflexivity|]. split; [apply (diff_ops_fine ex_old ex_new ex_old_wf ex_new_wf Fo Fn Df), diff_eq|].
  split; [|vm_compute; reflexivity].
  apply Forall_forall. intros op Hop. apply diff_In in Hop; [|apply ex_old_wf|apply ex_new_wf].
  destruct op; try exact I. cbn. intros s. apply (Dp t c s). exact Hop.
Qed.
(** A statement longer than 120 bytes is broken into lines and still one statement. *)
Definition wide : ATable :=
  {| t_name := "wide"; t_cols := [pkcol "identifier" TInt; col "group" TText; col "column_with_a_long_name" TBlob; col "another_column_with_a_long_name" TReal;
       with_ref (col "yet_another_column" TInt) (Some (RefLiteral {| rl_table := "post"; rl_column := "id" |}))] |}.
Example C26_wrapped_case : exists s s', turso_create_table ddl_kw wide true = Ok s /\ sqlite_create_table ddl_kw wide true = Ok s'
  /\ (120 < String.length s)%nat /\ List.length (turso_statements s) = 1%nat
  /\ parse_ddl sqlite_like as_is s = option_map not_strict (parse_ddl sqlite_like as_is s') /\ parse_ddl sqlite_like as_is s <> None.
Proof.
  eexists. eexists. split; [vm_compute; reflexivity|]. split; [vm_compute; reflexivity|].
  split; [vm_compute; lia|]. split; [vm_compute; reflexivity|]. split; [vm_compute; reflexivity|vm_compute; discriminate].
Qed.

(** A semicolon in a default value ends the statement in the middle. *)
Theorem C26_semicolon_default_refuted : exists current op script st,
  op_fine current op
  /\ turso_migration_sql ddl_kw bits_show current [op] = Ok script
  /\ parse_script sqlite_like as_is script = Some [st]
  /\ map (parse_ddl sqlite_like as_is) (turso_statements script) = [None; None].
Proof.
  exists ex_old, (AddColumn "post" {| c_name := "body"; c_type := Known TText; c_nullable := false; c_pk := false; c_auto := false;
    c_unique := false; c_default := Some (VText "a;b"); c_ref := None |}).
  eexists. eexists. split.
  { split; [reflexivity|]. split; [|eexists; split; reflexivity].
    split; [reflexivity|]. split; [eexists; split; [reflexivity|discriminate]|]. split; [discriminate|exact I]. }
  split; [vm_compute; reflexivity|]. split; [vm_compute; reflexivity|]. vm_compute. reflexivity.
Qed.
Print Assumptions C26_semicolon_default_refuted.
