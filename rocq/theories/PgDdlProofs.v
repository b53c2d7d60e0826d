(** The scripts generated for PostgreSQL read as the statements they stand for. *)
From Verif Require Import Base SqlVal Sql Query QuerySpec Adb AdbSpec AdbProofs Literal LiteralSpec LexProofs TokProofs
  LiteralProofs Ddl DdlProofs DdlSpec SqliteDdl SqliteDdlProofs PgDdl PgSem PgSpec.

(** * The statements, as data *)

Definition decl_words (c : AColumn) : list string :=
  match type_denotes (c_type c) with
  | inl (TyName n) => [n]
  | inl (TyId t) =>
      if c_auto c then match t with TInt => ["SERIAL"] | TBigInt => ["BIGSERIAL"] | _ => [] end
      else match t with TReal => ["DOUBLE"; "PRECISION"] | _ => [pg_type t] end
  | inr _ => []
  end%string.
Definition pg_coldef (c : AColumn) : coldef :=
  {| cd_name := c_name c; cd_type := decl_words c;
     cd_cons := (if c_nullable c then [] else [KNotNull]) ++ (if c_pk c then [KPrimary false] else [])
                ++ (if c_unique c then [KUnique] else []) |}.
Definition pg_fk_ast (tbl : string) (c : AColumn) : list ddl := map (AddForeignKey tbl) (fk_of c).
Definition same_type_b (a b : AColumn) : bool :=
  match typeid a, typeid b with Ok i, Ok j => typeid_eqb i j | _, _ => true end.

Section Ast.
Variable show : f64 -> string.
Definition pg_change_ast (tbl : string) (o n : AColumn) : list ddl :=
  (if same_type_b o n then [] else [SetType tbl (c_name o) (decl_words n)])
  ++ (if Bool.eqb (c_nullable o) (c_nullable n) then [] else [SetNotNull tbl (c_name o) (negb (c_nullable n))])
  ++ (if Bool.eqb (c_pk o) (c_pk n) then []
      else if c_pk n then [DropConstraint true tbl (tbl ++ "_pkey"); AddPrimaryKey tbl (c_name n)] else [])
  ++ (if Bool.eqb (c_unique o) (c_unique n) then []
      else if c_unique n then [AddUnique tbl (c_name n)]
      else [DropConstraint false tbl (tbl ++ "_" ++ c_name o ++ "_key")])
  ++ (if opt_eqb sqlval_eqb (c_default o) (c_default n) then []
      else [SetDefault tbl (c_name o) (option_map (lit_of show) (c_default n))])
  ++ (if opt_eqb aref_eqb (c_ref o) (c_ref n) then []
      else (match c_ref o with Some _ => [DropConstraint false tbl (tbl ++ "_" ++ c_name o ++ "_fkey")] | None => [] end)
           ++ pg_fk_ast tbl n).
Definition pg_op_ast (op : Operation) : list ddl :=
  match op with
  | AddTable t => [CreateTable false (t_name t) (map pg_coldef (t_cols t)) [] false]
  | AddTableIfNotExists t => [CreateTable true (t_name t) (map pg_coldef (t_cols t)) [] false]
  | AddTableConstraints t => flat_map (pg_fk_ast (t_name t)) (t_cols t)
  | RemoveTable n => [DropTable n]
  | RemoveTableConstraints t =>
      map (fun c => DropConstraint false (t_name t) (t_name t ++ "_" ++ c_name c ++ "_fkey")) (with_ref_cols t)
  | AddColumn t c => match column_default c with
                     | Ok v => AddCol t (with_default (pg_coldef c) (lit_of show v)) :: pg_fk_ast t c
                     | _ => []
                     end
  | RemoveColumn t n => [DropCol t n]
  | ChangeColumn t o n => pg_change_ast t o n
  end.
End Ast.

Definition key_free (d : dialect) : Prop :=
  forall w s, In s ["_pkey"; "_key"; "_fkey"]%string -> reserved d (w ++ s) = false.

(** Operations whose statements can be written. *)
Definition pg_op_fine (current : ADB) (op : Operation) : Prop :=
  match op with
  | AddTable t | AddTableIfNotExists t | AddTableConstraints t => pg_table_fine t
  | RemoveTableConstraints t => pg_table_fine t /\ wf_table t
  | RemoveTable n => identifier n = true
  | AddColumn t c => identifier t = true /\ pg_column_fine c /\ default_fine c
  | RemoveColumn t n => identifier t = true /\ identifier n = true
  | ChangeColumn t o n =>
      identifier t = true /\ pg_column_fine o /\ pg_column_fine n /\ c_name o = c_name n
      /\ (forall v, c_default n = Some v -> readable_literal v)
      /\ exists tb, get_table current t = Some tb /\ t_name tb = t
  end.

Section Render.
Variable d : dialect.
Variable kw : string -> bool.
Variable show : f64 -> string.
Variable read : bool -> string -> f64.
Hypothesis show_ok : display_ok read show.
Hypothesis Hq : quotes_enough kw d.
Hypothesis Hd : quotes_ddl kw ddl_words.
Hypothesis Hk : key_free d.
Notation qq := (q kw).

Definition pstmt (s : string) (x : ddl) : Prop := lexes s (ddl_toks kw [] x) /\ ddl_ok d x.
Definition psays (line : string) (xs : list ddl) : Prop := exists bodies, line = semis bodies /\ Forall2 pstmt bodies xs.
Lemma psays_one s x : pstmt s x -> psays (s ++ ";") [x].
Proof. intros H. exists [s]. split; [reflexivity|]. constructor; [exact H|constructor]. Qed.
Lemma psays_join lines xss : Forall2 psays lines xss -> Forall (fun l => l <> ""%string) lines -> psays (join nl lines) (concat xss).
Proof using.
  intros H N. induction H as [|l xs lines xss (b & -> & F) H IH]; [exists []; split; [reflexivity|constructor]|].
  inversion N as [|? ? Nl N']; subst. destruct (IH N') as (b' & E & F'). cbn [concat].
  assert (Nb : b <> []) by (intros ->; now apply Nl). exists (b ++ b'). split; [|now apply Forall2_app].
  destruct lines as [|l' lines].
  - cbn in E. symmetry in E. apply semis_empty in E. subst. now rewrite app_nil_r.
  - change (join nl (semis b :: l' :: lines)) with (semis b ++ nl ++ join nl (l' :: lines))%string. rewrite E. unfold semis. rewrite map_app, join_app.
    + reflexivity.
    + destruct b; cbn; congruence.
    + destruct b'; cbn; [|congruence]. intros _. cbn in E. inversion N' as [|? ? Nl' _]; subst. apply Nl'. destruct l' as [|ch l']; [reflexivity|].
      destruct lines; discriminate E.
Qed.

Lemma typeid_denotes c : (exists i, typeid c = Ok i /\ type_denotes (c_type c) = inl i) \/ (exists k, type_denotes (c_type c) = inr k).
Proof using. unfold typeid. destruct (c_type c); cbn; eauto. Qed.
Lemma words_lex c : pg_column_fine c -> exists s, pg_col_type c = Ok s /\ part s (map TWord (decl_words c)) /\ Forall type_word (decl_words c).
Proof using.
  intros (_ & Ty & Au & _). unfold pg_col_type, decl_words. destruct (typeid_denotes c) as [(i & E & D)|(k & D)]; rewrite D in *; [|contradiction].
  rewrite E. cbn [obind].
  assert (NF : forall n, type_name_fine n -> part n (map TWord [n]) /\ Forall type_word [n]).
  { intros n [Hi Hn]. split; [split; [now apply lexes_word|]|].
    - apply identifier_word in Hi as [Hi _]. apply (all_chars_weaken is_word); [apply word_not_semi|exact Hi].
    - constructor; [|constructor]. unfold type_word. unfold kmem in Hn |- *. cbn [existsb] in Hn. apply orb_false_iff in Hn as [_ Hn]. now apply orb_false_iff in Hn as [_ Hn]. }
  destruct i as [t|n].
  - destruct (c_auto c) eqn:A.
    + destruct (Au eq_refl) as [[[= ->]|[= ->]] _]; (eexists; split; [reflexivity|]); (split; [apply (part_fixed _ []); reflexivity|repeat constructor]).
    + destruct t; (eexists; split; [reflexivity|]);
        try (split; [apply (part_fixed _ []); reflexivity|repeat constructor]); try (now apply NF).
      split; [apply (part_fixed "DOUBLE PRECISION" [TWord "DOUBLE"]); reflexivity|repeat constructor].
  - eexists. split; [reflexivity|]. now apply NF.
Qed.
Lemma pg_constraints_part c : pg_constraints c <> [] -> part (join " " (pg_constraints c)) (flat_map cons_toks (cd_cons (pg_coldef c))).
Proof using.
  unfold pg_constraints, pg_coldef. cbn [cd_cons].
  destruct (c_nullable c), (c_pk c), (c_unique c); cbn [List.app flat_map cons_toks join]; intros N; try congruence.
  all: match goal with |- part ?s ?l => let l' := eval cbn in l in change (part s l') end.
  all: match goal with
       | |- part _ [?a; ?b; ?c; ?d; TWord ?w] => apply (part_fixed _ [a; b; c; d] w)
       | |- part _ [?a; ?b; ?c; TWord ?w] => apply (part_fixed _ [a; b; c] w)
       | |- part _ [?a; ?b; TWord ?w] => apply (part_fixed _ [a; b] w)
       | |- part _ [?a; TWord ?w] => apply (part_fixed _ [a] w)
       | |- part _ [TWord ?w] => apply (part_fixed _ [] w)
       end; reflexivity.
Qed.
Lemma pg_coldef_part c : pg_column_fine c -> exists s, pg_define_column kw c = Ok s /\ part s (coldef_toks kw (pg_coldef c)) /\ col_ok (pg_coldef c).
Proof using.
  intros H. destruct (words_lex c H) as (ty & E & P & W). unfold pg_define_column. pose proof (proj1 H) as Hn.
  destruct (pg_constraints c) as [|k ks] eqn:K; rewrite E; cbn [obind]; (eexists; split; [reflexivity|]); (split; [|exact W]).
  - eapply part_eq.
    + apply part_app; [now apply part_q|reflexivity|]. apply part_after; [apply space_fixed|exact P].
    + unfold coldef_toks. cbn [pg_coldef cd_name cd_type cd_cons map List.app].
      unfold pg_constraints in K. destruct (c_nullable c), (c_pk c), (c_unique c); cbn in K |- *; try discriminate. now rewrite app_nil_r.
  - rewrite <- K. eapply part_eq.
    + apply part_app; [now apply part_q|reflexivity|]. apply part_after; [apply space_fixed|].
      apply part_app; [exact P|reflexivity|]. apply part_after; [apply space_fixed|]. apply pg_constraints_part. congruence.
    + reflexivity.
Qed.
Lemma pg_coldefs_part cs : Forall pg_column_fine cs ->
  exists l, omapm (pg_define_column kw) cs = Ok l /\ Forall2 part l (map (coldef_toks kw) (map pg_coldef cs)) /\ Forall col_ok (map pg_coldef cs).
Proof using.
  induction 1 as [|c cs H Hs (l & E & F & O)]; [exists []; repeat split; constructor|].
  destruct (pg_coldef_part c H) as (s & E' & P & Oc). exists (s :: l). cbn [omapm]. rewrite E'. cbn [obind]. rewrite E. split; [reflexivity|].
  split; now constructor.
Qed.
Lemma pg_create_stmt t b : pg_table_fine t ->
  exists s, pg_create_table kw t b = Ok (s ++ ";")%string /\ pstmt s (CreateTable b (t_name t) (map pg_coldef (t_cols t)) [] false).
Proof using.
  intros (Hn & Ne & F). destruct (pg_coldefs_part _ F) as (l & El & Pl & Ol). unfold pg_create_table. rewrite El. cbn [obind].
  exists ("CREATE TABLE " ++ (if b then "IF NOT EXISTS " else "") ++ qq (t_name t) ++ " (" ++ nl ++ join ("," ++ nl) l ++ nl ++ ")")%string.
  split; [now rewrite <- !str_app_assoc|].
  assert (Nl : l <> []).
  { intros ->. cbn in Pl. inversion Pl as [E|]. destruct (t_cols t); [congruence|discriminate]. }
  split; [|split; [intros E; apply map_eq_nil in E; contradiction|exact Ol]].
  cbn [ddl_toks]. eapply proj1, part_eq.
  - apply (part_after "CREATE TABLE " [TWord "CREATE"; TWord "TABLE"]); [split; [intros x|]; reflexivity|].
    apply (part_after _ (if b then [TWord "IF"; TWord "NOT"; TWord "EXISTS"] else [])); [destruct b; (split; [intros x|]; reflexivity)|].
    apply part_app; [now apply part_q|reflexivity|].
    apply (part_after " (" [TLP]); [split; [intros x|]; reflexivity|].
    apply (part_after nl []); [apply nl_fixed|].
    apply part_app; [apply (part_join ("," ++ nl) [TComma]); [reflexivity|apply comma_nl_fixed|exact Pl|exact Nl]|reflexivity|].
    apply fixed_part. instantiate (1 := [TRP]). split; [intros x|]; reflexivity.
  - cbn [List.app]. do 2 f_equal. f_equal. cbn [List.app]. do 2 f_equal. unfold items_toks. now rewrite app_nil_r.
Qed.
(** The fixed texts around names. *)
Ltac fx := split; [intros ?x|]; reflexivity.
Lemma pg_fkey_stmt tbl c r : identifier tbl = true -> pg_column_fine c -> c_ref c = Some r ->
  exists s f, pg_fkey kw tbl c = Ok (s ++ ";")%string /\ fk_of c = [f] /\ pstmt s (AddForeignKey tbl f).
Proof using.
  intros Ht (Hn & _ & _ & _ & Hr) Er. unfold pg_fkey, fk_of. rewrite Er in *. destruct r as [r|]; [|contradiction]. destruct Hr as [H1 H2].
  exists ("ALTER TABLE " ++ qq tbl ++ " ADD FOREIGN KEY (" ++ qq (c_name c) ++ ") REFERENCES " ++ qq (rl_table r) ++ "(" ++ qq (rl_column r) ++ ")")%string.
  eexists. split; [now rewrite <- !str_app_assoc|]. split; [reflexivity|]. split; [|exact I]. eapply proj1, part_eq.
  - apply (part_after "ALTER TABLE " [TWord "ALTER"; TWord "TABLE"]); [fx|].
    apply part_app; [now apply part_q|reflexivity|].
    apply (part_after " ADD FOREIGN KEY (" [TWord "ADD"; TWord "FOREIGN"; TWord "KEY"; TLP]); [fx|].
    apply part_app; [now apply part_q|reflexivity|].
    apply (part_after ") REFERENCES " [TRP; TWord "REFERENCES"]); [fx|].
    apply part_app; [now apply part_q|reflexivity|].
    apply (part_after "(" [TLP]); [fx|]. apply part_app; [now apply part_q|reflexivity|].
    apply fixed_part. instantiate (1 := [TRP]). fx.
  - reflexivity.
Qed.
Lemma pg_fkeys_say t : pg_table_fine t -> exists l, pg_table_fkeys kw t = Ok l /\ psays l (flat_map (pg_fk_ast (t_name t)) (t_cols t)).
Proof using.
  intros (Hn & _ & F). unfold pg_table_fkeys, with_ref_cols.
  assert (X : exists l xss, omapm (pg_fkey kw (t_name t)) (filter (fun c => match c_ref c with Some _ => true | None => false end) (t_cols t)) = Ok l
    /\ Forall2 psays l xss /\ Forall (fun s => s <> ""%string) l /\ concat xss = flat_map (pg_fk_ast (t_name t)) (t_cols t)).
  { induction F as [|c cs Hc F IH]; [exists [], []; repeat split; constructor|]. destruct IH as (l & xss & E & S & N & C). cbn [filter flat_map].
    destruct (c_ref c) as [r|] eqn:R.
    - destruct (pg_fkey_stmt (t_name t) c r Hn Hc R) as (s & f & E' & K & P). exists ((s ++ ";")%string :: l), ([AddForeignKey (t_name t) f] :: xss).
      cbn [omapm]. rewrite E'. cbn [obind]. rewrite E. split; [reflexivity|]. split; [constructor; [now apply psays_one|exact S]|].
      split; [constructor; [destruct s; discriminate|exact N]|]. cbn [concat]. rewrite C. unfold pg_fk_ast at 2. now rewrite K.
    - exists l, xss. split; [exact E|]. split; [exact S|]. split; [exact N|]. unfold pg_fk_ast at 1. unfold fk_of. now rewrite R. }
  destruct X as (l & xss & E & S & N & C). rewrite E. cbn [obind]. eexists. split; [reflexivity|]. rewrite <- C. now apply psays_join.
Qed.
Lemma pg_drop_stmt n : identifier n = true -> exists s, pg_drop_table kw n = (s ++ ";")%string /\ pstmt s (DropTable n).
Proof using.
  intros H. exists ("DROP TABLE " ++ qq n)%string. split; [unfold pg_drop_table; now rewrite <- !str_app_assoc|]. split; [|exact I].
  eapply proj1, part_eq; [apply (part_after "DROP TABLE " [TWord "DROP"; TWord "TABLE"]); [fx|now apply part_q]|reflexivity].
Qed.
Lemma pg_dropcol_stmt n m : identifier n = true -> identifier m = true -> exists s, pg_remove_column kw n m = (s ++ ";")%string /\ pstmt s (DropCol n m).
Proof using.
  intros H K. exists ("ALTER TABLE " ++ qq n ++ " DROP COLUMN " ++ qq m)%string. split; [unfold pg_remove_column; now rewrite <- !str_app_assoc|]. split; [|exact I].
  eapply proj1, part_eq.
  - apply (part_after "ALTER TABLE " [TWord "ALTER"; TWord "TABLE"]); [fx|]. apply part_app; [now apply part_q|reflexivity|].
    apply (part_after " DROP COLUMN " [TWord "DROP"; TWord "COLUMN"]); [fx|now apply part_q].
  - reflexivity.
Qed.
Lemma pg_add_say t c : identifier t = true -> pg_column_fine c -> default_fine c ->
  exists l, pg_add_column kw show t c = Ok l /\ psays l (pg_op_ast show (AddColumn t c)).
Proof using show_ok.
  intros Ht Hc (v & Dv & Rv). unfold pg_add_column. cbn [pg_op_ast]. rewrite Dv. cbn [obind]. destruct (pg_coldef_part c Hc) as (def & Ed & Pd & Od). rewrite Ed. cbn [obind].
  destruct (literal_part show read show_ok v Rv) as (l & El & Ll & Enl & Nl). rewrite El. cbn [obind].
  set (s := ("ALTER TABLE " ++ qq t ++ " ADD COLUMN " ++ def ++ " DEFAULT " ++ l)%string).
  replace ("ALTER TABLE " ++ qq t ++ " ADD COLUMN " ++ def ++ " DEFAULT " ++ l ++ ";")%string with (s ++ ";")%string by (unfold s; now rewrite <- !str_app_assoc).
  assert (P : pstmt s (AddCol t (with_default (pg_coldef c) (lit_of show v)))).
  { split; [|exact Od].
    assert (Q : lexes s
      ([TWord "ALTER"; TWord "TABLE"] ++ [qtok kw t] ++ [TWord "ADD"; TWord "COLUMN"] ++ coldef_toks kw (pg_coldef c) ++ [TWord "DEFAULT"] ++ lit_toks (lit_of show v))).
    { apply lexes_after; [intros x; reflexivity|]. apply lexes_app; [now apply q_lexes|reflexivity|].
      apply lexes_after; [intros x; reflexivity|]. apply lexes_app; [apply Pd|reflexivity|]. apply lexes_after; [intros x; reflexivity|exact Ll]. }
    assert (E : ddl_toks kw [] (AddCol t (with_default (pg_coldef c) (lit_of show v)))
      = [TWord "ALTER"; TWord "TABLE"] ++ [qtok kw t] ++ [TWord "ADD"; TWord "COLUMN"] ++ coldef_toks kw (pg_coldef c) ++ [TWord "DEFAULT"] ++ lit_toks (lit_of show v)).
    { cbn [ddl_toks List.app]. do 5 f_equal. unfold coldef_toks, with_default. cbn [cd_name cd_type cd_cons List.app]. f_equal.
      rewrite <- app_assoc. f_equal. rewrite flat_map_app. cbn [flat_map cons_toks]. now rewrite app_nil_r. }
    now rewrite E. }
  unfold pg_fk_ast. destruct (c_ref c) as [r|] eqn:R.
  - destruct (pg_fkey_stmt t c r Ht Hc R) as (s' & f & E' & K & P'). rewrite E', K. cbn [obind]. eexists. split; [reflexivity|].
    exists [s; s']. split; [reflexivity|]. constructor; [exact P|]. constructor; [exact P'|constructor].
  - eexists. split; [reflexivity|]. unfold fk_of. rewrite R. now apply psays_one.
Qed.

(** Names of constraints are never keywords. *)
Lemma upper_app a b : upper (a ++ b) = (upper a ++ upper b)%string.
Proof using. induction a as [|c a IH]; [reflexivity|]. cbn. now rewrite IH. Qed.
Lemma suffix_not w s : In s ["_pkey"; "_key"; "_fkey"]%string -> kmem (upper (w ++ s)) ddl_words = false.
Proof using.
  intros H. rewrite upper_app. destruct (kmem (upper w ++ upper s)%string ddl_words) eqn:E; [|reflexivity]. exfalso. apply kmem_In in E.
  assert (X : forall u a b, (u ++ a)%string = b -> String.length a <= String.length b /\ substring (String.length b - String.length a) (String.length a) b = a).
  { clear. intros u a b <-. assert (L : forall x y, String.length (x ++ y) = String.length x + String.length y).
    { induction x as [|c x IH]; intros y; [reflexivity|]. cbn. now rewrite IH. }
    rewrite L. split; [lia|]. replace (String.length u + String.length a - String.length a) with (String.length u) by lia.
    induction u as [|c u IH]; [|exact IH]. cbn. induction a as [|c a IH]; [reflexivity|]. cbn. now rewrite IH. }
  cbn in E, H. repeat destruct H as [<-|H]; try contradiction; repeat destruct E as [E|E]; try contradiction;
    symmetry in E; apply X in E as [_ E]; vm_compute in E; discriminate E.
Qed.
Lemma name_part w u : identifier w = true -> all_chars is_word u = true -> part (w ++ u) [TWord (w ++ u)].
Proof using.
  intros H U. assert (Hi : identifier (w ++ u) = true).
  { destruct w as [|c w]; [discriminate|]. cbn in H |- *. apply andb_true_iff in H as [H1 H2]. rewrite H1, all_chars_app, H2. exact U. }
  split; [now apply lexes_word|]. apply identifier_word in Hi as [Hi _]. apply (all_chars_weaken is_word); [apply word_not_semi|exact Hi].
Qed.
Lemma drop_cons_stmt tbl name (b : bool) s : identifier tbl = true -> part name [TWord name] ->
  (exists w, name = (w ++ s)%string) -> In s ["_pkey"; "_key"; "_fkey"]%string ->
  pstmt ("ALTER TABLE " ++ qq tbl ++ " DROP CONSTRAINT " ++ (if b then "IF EXISTS " else "") ++ name) (DropConstraint b tbl name).
Proof using Hk.
  intros Ht P (w & ->) Hs. split; [|split; [now apply Hk|now apply suffix_not]]. eapply proj1, part_eq.
  - apply (part_after "ALTER TABLE " [TWord "ALTER"; TWord "TABLE"]); [fx|]. apply part_app; [now apply part_q|reflexivity|].
    apply (part_after " DROP CONSTRAINT " [TWord "DROP"; TWord "CONSTRAINT"]); [fx|].
    apply (part_after _ (if b then [TWord "IF"; TWord "EXISTS"] else [])); [destruct b; fx|exact P].
  - cbn [ddl_toks]. destruct b; reflexivity.
Qed.
Lemma in_paren_stmt tbl n (b : bool) : identifier tbl = true -> identifier n = true ->
  pstmt ("ALTER TABLE " ++ qq tbl ++ (if b then " ADD PRIMARY KEY (" else " ADD UNIQUE (") ++ qq n ++ ")")
        (if b then AddPrimaryKey tbl n else AddUnique tbl n).
Proof using.
  intros Ht Hn. split; [|now destruct b]. eapply proj1, part_eq.
  - apply (part_after "ALTER TABLE " [TWord "ALTER"; TWord "TABLE"]); [fx|]. apply part_app; [now apply part_q|now destruct b|].
    apply (part_after _ ([TWord "ADD"] ++ (if b then [TWord "PRIMARY"; TWord "KEY"] else [TWord "UNIQUE"]) ++ [TLP])); [destruct b; fx|].
    apply part_app; [now apply part_q|reflexivity|]. apply fixed_part. instantiate (1 := [TRP]). fx.
  - destruct b; reflexivity.
Qed.
Lemma alter_stmt tbl n rest ts : identifier tbl = true -> identifier n = true -> begins_delim rest -> lexes rest ts ->
  lexes ("ALTER TABLE " ++ qq tbl ++ " ALTER COLUMN " ++ qq n ++ rest)
    (TWord "ALTER" :: TWord "TABLE" :: qtok kw tbl :: TWord "ALTER" :: TWord "COLUMN" :: qtok kw n :: ts).
Proof using.
  intros Ht Hn B L.
  change (TWord "ALTER" :: TWord "TABLE" :: qtok kw tbl :: TWord "ALTER" :: TWord "COLUMN" :: qtok kw n :: ts)
    with ([TWord "ALTER"; TWord "TABLE"] ++ [qtok kw tbl] ++ [TWord "ALTER"; TWord "COLUMN"] ++ [qtok kw n] ++ ts).
  apply lexes_after; [intros x; reflexivity|]. apply lexes_app; [now apply q_lexes|reflexivity|].
  apply lexes_after; [intros x; reflexivity|]. apply lexes_app; [now apply q_lexes|exact B|exact L].
Qed.
Lemma same_type_eq o n i j : typeid o = Ok i -> typeid n = Ok j -> same_type_b o n = typeid_eqb i j.
Proof using. intros A B. unfold same_type_b. now rewrite A, B. Qed.

Definition psayl (lines : list string) (xs : list ddl) : Prop := exists bodies, lines = map semi bodies /\ Forall2 pstmt bodies xs.
Lemma psayl_nil : psayl [] [].
Proof using. exists []. split; [reflexivity|constructor]. Qed.
Lemma psayl_one s x l : l = (s ++ ";")%string -> pstmt s x -> psayl [l] [x].
Proof using. intros -> H. exists [s]. split; [reflexivity|]. constructor; [exact H|constructor]. Qed.
Lemma psayl_app a b xs ys : psayl a xs -> psayl b ys -> psayl (a ++ b) (xs ++ ys).
Proof using. intros (u & -> & F) (v & -> & G). exists (u ++ v). split; [now rewrite map_app|now apply Forall2_app]. Qed.
Lemma psayl_says l xs : psayl l xs -> psays (join nl l) xs.
Proof using. intros (b & -> & F). exists b. now split. Qed.

Lemma pg_change_say t o n : identifier t = true -> pg_column_fine o -> pg_column_fine n -> c_name o = c_name n ->
  (forall v, c_default n = Some v -> opt_eqb sqlval_eqb (c_default o) (c_default n) = false -> readable_literal v) ->
  exists l, pg_change_column kw show t o n = Ok l /\ psays l (pg_change_ast show t o n).
Proof using show_ok Hk.
  intros Ht Fo Fn En Rd. pose proof (proj1 Fo) as Io. pose proof (proj1 Fn) as In_. unfold pg_change_column, pg_change_ast.
  assert (Es : String.eqb (c_name o) (c_name n) = true) by (now apply String.eqb_eq). rewrite Es. cbn [List.app].
  destruct (typeid_denotes o) as [(i & Ei & Di)|(k & Di)]; [|destruct Fo as (_ & X & _); rewrite Di in X; contradiction].
  destruct (typeid_denotes n) as [(j & Ej & Dj)|(k & Dj)]; [|destruct Fn as (_ & X & _); rewrite Dj in X; contradiction].
  rewrite (same_type_eq o n i j Ei Ej), Ei, Ej. cbn [obind].
  assert (T : exists l, (if typeid_eqb i j then Ok [] else do ty <- pg_col_type n; Ok [(("ALTER TABLE " ++ qq t) ++ (" ALTER COLUMN " ++ qq (c_name o)) ++ " SET DATA TYPE " ++ ty ++ ";")%string]) = Ok l
    /\ psayl l (if typeid_eqb i j then [] else [SetType t (c_name o) (decl_words n)])).
  { destruct (typeid_eqb i j); [exists []; split; [reflexivity|apply psayl_nil]|]. destruct (words_lex n Fn) as (ty & E & P & W). rewrite E. cbn [obind].
    eexists. split; [reflexivity|]. apply (psayl_one ("ALTER TABLE " ++ qq t ++ " ALTER COLUMN " ++ qq (c_name o) ++ " SET DATA TYPE " ++ ty)); [now rewrite <- !str_app_assoc|].
    split; [|exact W]. cbn [ddl_toks]. apply alter_stmt; [assumption..|reflexivity|].
    apply (lexes_after " SET DATA TYPE " [TWord "SET"; TWord "DATA"; TWord "TYPE"]); [intros x; reflexivity|apply P]. }
  destruct T as (l1 & -> & T). cbn [obind]. clear Ei Ej Di Dj.
  assert (D : exists l, (if opt_eqb sqlval_eqb (c_default o) (c_default n) then Ok []
    else match c_default n with
         | None => Ok [(("ALTER TABLE " ++ qq t) ++ (" ALTER COLUMN " ++ qq (c_name o)) ++ " DROP DEFAULT;")%string]
         | Some v => do l <- sql_literal_value show v; Ok [(("ALTER TABLE " ++ qq t) ++ (" ALTER COLUMN " ++ qq (c_name o)) ++ " SET DEFAULT " ++ l ++ ";")%string]
         end) = Ok l
    /\ psayl l (if opt_eqb sqlval_eqb (c_default o) (c_default n) then [] else [SetDefault t (c_name o) (option_map (lit_of show) (c_default n))])).
  { destruct (opt_eqb sqlval_eqb (c_default o) (c_default n)) eqn:Ed; [exists []; split; [reflexivity|apply psayl_nil]|]. destruct (c_default n) as [v|] eqn:Dn.
    - destruct (literal_part show read show_ok v (Rd v eq_refl eq_refl)) as (l & El & Ll & _). rewrite El. cbn [obind]. eexists. split; [reflexivity|].
      apply (psayl_one ("ALTER TABLE " ++ qq t ++ " ALTER COLUMN " ++ qq (c_name o) ++ " SET DEFAULT " ++ l)); [now rewrite <- !str_app_assoc|].
      split; [|exact I]. cbn [ddl_toks option_map]. apply alter_stmt; [assumption..|reflexivity|].
      apply (lexes_after " SET DEFAULT " [TWord "SET"; TWord "DEFAULT"]); [intros x; reflexivity|exact Ll].
    - eexists. split; [reflexivity|]. apply (psayl_one ("ALTER TABLE " ++ qq t ++ " ALTER COLUMN " ++ qq (c_name o) ++ " DROP DEFAULT")); [now rewrite <- !str_app_assoc|].
      split; [|exact I]. cbn [ddl_toks option_map]. apply alter_stmt; [assumption..|reflexivity|]. apply (part_fixed " DROP DEFAULT" [TWord "DROP"] "DEFAULT"); reflexivity. }
  destruct D as (l2 & -> & D). cbn [obind].
  assert (R : exists l, (if opt_eqb aref_eqb (c_ref o) (c_ref n) then Ok []
    else
      let gone := match c_ref o with
                  | Some _ => [(("ALTER TABLE " ++ qq t) ++ " DROP CONSTRAINT " ++ t ++ "_" ++ c_name o ++ "_fkey;")%string]
                  | None => []
                  end in
      match c_ref n with
      | Some _ => do f <- pg_fkey kw t n; Ok (gone ++ [f])
      | None => Ok gone
      end) = Ok l
    /\ psayl l (if opt_eqb aref_eqb (c_ref o) (c_ref n) then []
      else (match c_ref o with Some _ => [DropConstraint false t (t ++ "_" ++ c_name o ++ "_fkey")] | None => [] end) ++ pg_fk_ast t n)).
  { destruct (opt_eqb aref_eqb (c_ref o) (c_ref n)); [exists []; split; [reflexivity|apply psayl_nil]|]. cbv zeta.
    set (gone := match c_ref o with Some _ => [(("ALTER TABLE " ++ qq t) ++ " DROP CONSTRAINT " ++ t ++ "_" ++ c_name o ++ "_fkey;")%string] | None => [] end).
    assert (G : psayl gone (match c_ref o with Some _ => [DropConstraint false t (t ++ "_" ++ c_name o ++ "_fkey")] | None => [] end)).
    { unfold gone. destruct (c_ref o) as [r|]; [|apply psayl_nil].
      apply (psayl_one ("ALTER TABLE " ++ qq t ++ " DROP CONSTRAINT " ++ "" ++ (t ++ "_" ++ c_name o ++ "_fkey"))); [now rewrite <- !str_app_assoc|].
      apply (drop_cons_stmt t _ false "_fkey"); [assumption| | |cbn; tauto].
      - apply name_part; [assumption|]. cbn [append all_chars]. apply identifier_word in Io as [Io _]. now rewrite all_chars_app, Io.
      - exists (t ++ "_" ++ c_name o)%string. now rewrite <- !str_app_assoc. }
    unfold pg_fk_ast. destruct (c_ref n) as [r|] eqn:Rn.
    - destruct (pg_fkey_stmt t n r Ht Fn Rn) as (s & f & E & K & P). rewrite E, K. cbn [obind]. eexists. split; [reflexivity|].
      apply psayl_app; [exact G|]. now apply (psayl_one s).
    - eexists. split; [reflexivity|]. unfold fk_of. rewrite Rn. cbn [map]. now rewrite app_nil_r. }
  destruct R as (l3 & ER & R). cbv zeta in ER |- *. rewrite ER. cbn [obind]. eexists. split; [reflexivity|]. apply psayl_says.
  apply psayl_app; [exact T|]. apply psayl_app; [|apply psayl_app; [|apply psayl_app; [|apply psayl_app; [exact D|exact R]]]].
  - destruct (Bool.eqb (c_nullable o) (c_nullable n)); [apply psayl_nil|].
    apply (psayl_one ("ALTER TABLE " ++ qq t ++ " ALTER COLUMN " ++ qq (c_name o) ++ (if c_nullable n then " DROP" else " SET") ++ " NOT NULL")); [rewrite <- !str_app_assoc; now destruct (c_nullable n)|].
    split; [|exact I]. cbn [ddl_toks]. apply alter_stmt; [assumption..|now destruct (c_nullable n)|].
    destruct (c_nullable n); [apply (part_fixed " DROP NOT NULL" [TWord "DROP"; TWord "NOT"] "NULL")|apply (part_fixed " SET NOT NULL" [TWord "SET"; TWord "NOT"] "NULL")]; reflexivity.
  - destruct (Bool.eqb (c_pk o) (c_pk n)); [apply psayl_nil|]. destruct (c_pk n); [|apply psayl_nil].
    apply (psayl_app [_] [_] [_] [_]).
    + apply (psayl_one ("ALTER TABLE " ++ qq t ++ " DROP CONSTRAINT " ++ "IF EXISTS " ++ (t ++ "_pkey"))); [now rewrite <- !str_app_assoc|].
      apply (drop_cons_stmt t _ true "_pkey"); [assumption|now apply name_part|now exists t|cbn; tauto].
    + apply (psayl_one ("ALTER TABLE " ++ qq t ++ " ADD PRIMARY KEY (" ++ qq (c_name n) ++ ")")); [now rewrite <- !str_app_assoc|]. now apply (in_paren_stmt t (c_name n) true).
  - destruct (Bool.eqb (c_unique o) (c_unique n)); [apply psayl_nil|]. destruct (c_unique n).
    + apply (psayl_one ("ALTER TABLE " ++ qq t ++ " ADD UNIQUE (" ++ qq (c_name n) ++ ")")); [now rewrite <- !str_app_assoc|]. now apply (in_paren_stmt t (c_name n) false).
    + apply (psayl_one ("ALTER TABLE " ++ qq t ++ " DROP CONSTRAINT " ++ "" ++ (t ++ "_" ++ c_name o ++ "_key"))); [now rewrite <- !str_app_assoc|].
      apply (drop_cons_stmt t _ false "_key"); [assumption| | |cbn; tauto].
      * apply name_part; [assumption|]. cbn [append all_chars]. apply identifier_word in Io as [Io _]. now rewrite all_chars_app, Io.
      * exists (t ++ "_" ++ c_name o)%string. now rewrite <- !str_app_assoc.
Qed.

Lemma eqb_same_opt {A} (f : A -> A -> bool) (a : option A) : (forall x, a = Some x -> f x x = true) -> opt_eqb f a a = true.
Proof using. destruct a; cbn; auto. Qed.
Lemma drop_fkey_ast t c r : (forall v, c_default c = Some v -> ~ sqlval_nan v) -> c_ref c = Some r ->
  pg_change_ast show t c (with_ref c None) = [DropConstraint false t (t ++ "_" ++ c_name c ++ "_fkey")].
Proof using.
  intros Nn R. unfold pg_change_ast, same_type_b. cbn [with_ref c_name c_type c_nullable c_pk c_unique c_default c_ref].
  change (typeid (with_ref c None)) with (typeid c). rewrite !Bool.eqb_reflx, R. cbn [opt_eqb].
  assert (E : opt_eqb sqlval_eqb (c_default c) (c_default c) = true).
  { apply eqb_same_opt. intros v Hv. apply sqlval_eqb_refl. now apply Nn. }
  rewrite E. destruct (typeid c) as [i| |]; try reflexivity. destruct (typeid_eqb_spec i i); [reflexivity|congruence].
Qed.
Lemma with_ref_fine c : pg_column_fine c -> pg_column_fine (with_ref c None).
Proof using. intros (A & B & C & D & _). repeat split; try assumption; now apply C. Qed.
Lemma pg_drop_fkeys_say t : pg_table_fine t -> wf_table t ->
  exists l, pg_drop_fkeys kw show t = Ok l /\ psays l (pg_op_ast show (RemoveTableConstraints t)).
Proof using show_ok Hk.
  intros (Hn & _ & F) [_ W]. unfold pg_drop_fkeys. cbn [pg_op_ast]. unfold with_ref_cols.
  assert (X : exists l xss, omapm (pg_drop_fkey kw show (t_name t)) (filter (fun c => match c_ref c with Some _ => true | None => false end) (t_cols t)) = Ok l
    /\ Forall2 psays l xss /\ Forall (fun s => s <> ""%string) l
    /\ concat xss = map (fun c => DropConstraint false (t_name t) (t_name t ++ "_" ++ c_name c ++ "_fkey")) (filter (fun c => match c_ref c with Some _ => true | None => false end) (t_cols t))).
  { induction F as [|c cs Hc F IH]; [exists [], []; repeat split; constructor|]. destruct IH as (l & xss & E & S & N & C); [intros x v Hx; apply W; now right|].
    cbn [filter map]. destruct (c_ref c) as [r|] eqn:R; [|exists l, xss; auto].
    assert (Nn : forall v, c_default c = Some v -> ~ sqlval_nan v) by (intros v; apply W; now left).
    destruct (pg_change_say (t_name t) c (with_ref c None) Hn Hc (with_ref_fine c Hc) eq_refl) as (line & E' & P).
    { intros v Hv Ne. exfalso. cbn in Hv, Ne. rewrite eqb_same_opt in Ne; [discriminate|]. intros x Hx. now apply sqlval_eqb_refl, Nn. }
    rewrite (drop_fkey_ast _ c r Nn R) in P. cbn [omapm].
    assert (E1 : pg_drop_fkey kw show (t_name t) c = Ok line) by exact E'. rewrite E1. cbn [obind].
    exists (line :: l), ([DropConstraint false (t_name t) (t_name t ++ "_" ++ c_name c ++ "_fkey")] :: xss).
    rewrite E. split; [reflexivity|]. split; [now constructor|]. split; [constructor; [|exact N]|cbn; now rewrite C].
    destruct P as (b & -> & Fb). intros Em. apply semis_empty in Em. subst. inversion Fb. }
  destruct X as (l & xss & E & S & N & C). rewrite E. cbn [obind]. eexists. split; [reflexivity|]. rewrite <- C. now apply psays_join.
Qed.

Lemma pg_op_says current op : pg_op_fine current op -> exists line, pg_sql_for_op kw show current op = Ok line /\ psays line (pg_op_ast show op).
Proof using show_ok Hk.
  intros H. destruct op as [t|t|t|n|t c|t n|t o c|t]; cbn [pg_op_fine] in H; cbn [pg_sql_for_op].
  - destruct (pg_create_stmt t false H) as (s & E & P). rewrite E. eexists. split; [reflexivity|]. now apply psays_one.
  - destruct (pg_create_stmt t true H) as (s & E & P). rewrite E. eexists. split; [reflexivity|]. now apply psays_one.
  - destruct H. now apply pg_drop_fkeys_say.
  - destruct (pg_drop_stmt n H) as (s & E & P). rewrite E. eexists. split; [reflexivity|]. now apply psays_one.
  - destruct H as (A & B & C). now apply pg_add_say.
  - destruct H as (A & B). destruct (pg_dropcol_stmt t n A B) as (s & E & P). rewrite E. eexists. split; [reflexivity|]. now apply psays_one.
  - destruct H as (A & B & C & D & E & tb & G & Nt). rewrite G, Nt. apply pg_change_say; auto.
  - now apply pg_fkeys_say.
Qed.
Lemma pg_ops_say current ops : Forall (pg_op_fine current) ops ->
  exists lines, omapm (pg_sql_for_op kw show current) ops = Ok (map semis lines) /\ Forall2 pstmt (concat lines) (flat_map (pg_op_ast show) ops).
Proof using show_ok Hk.
  induction 1 as [|o ops Ho H (l & E & S)]; [exists []; split; [reflexivity|constructor]|].
  destruct (pg_op_says current o Ho) as (line & E' & b & -> & F). exists (b :: l). cbn [omapm]. rewrite E'. cbn [obind]. rewrite E.
  split; [reflexivity|]. cbn. now apply Forall2_app.
Qed.
Lemma psemis_lex bodies xs : Forall2 pstmt bodies xs -> reads (semis bodies ++ nl) (script_toks kw [] xs).
Proof using.
  intros H. induction H as [|b x bodies xs (L & _) H IH]; [intros r; reflexivity|].
  assert (X : reads (semi b) (ddl_toks kw [] x ++ [TSemi])).
  { unfold semi. apply reads_close; [exact L|reflexivity|intros r; reflexivity]. }
  cbn [script_toks flat_map]. destruct bodies as [|b' bodies].
  - inversion H; subst. cbn [flat_map]. apply reads_app; [exact X|intros r; reflexivity].
  - change (semis (b :: b' :: bodies)) with (semi b ++ nl ++ semis (b' :: bodies))%string. rewrite <- !str_app_assoc.
    apply reads_app; [exact X|]. apply (reads_app nl []); [intros r; reflexivity|exact IH].
Qed.
Theorem pg_script current ops : Forall (pg_op_fine current) ops ->
  exists script, pg_migration_sql kw show current ops = Ok script
    /\ parse_script d lower script = Some (map (respell kw lower) (flat_map (pg_op_ast show) ops)).
Proof.
  intros H. destruct (pg_ops_say current ops H) as (l & E & S). unfold pg_migration_sql. rewrite E. cbn [obind]. eexists. split; [reflexivity|].
  rewrite script_semis. apply (parse_script_toks kw d lower Hq Hd []); [now left| |].
  - clear - S. induction S as [|b x bs xs (_ & O) S IH]; constructor; assumption.
  - unfold lex. pose proof (psemis_lex _ _ S ""%string) as R. rewrite str_app_nil_r in R. rewrite R. cbn. now rewrite app_nil_r.
Qed.
End Render.
