(** The scripts generated for SQLite and Turso read as the statements they stand for. *)
From Coq Require Import DecimalString.
From Verif Require Import Base SqlVal Sql Query QuerySpec Adb AdbSpec Literal LiteralSpec LexProofs TokProofs
  LiteralProofs Ddl DdlProofs DdlSpec SqliteDdl.

(** * The statements, as data *)

Definition type_word_of (c : AColumn) : string :=
  match type_denotes (c_type c) with
  | inl (TyId t) => match sqlite_type t with Ok w => w | _ => "" end
  | _ => ""
  end.
Definition coldef_of (c : AColumn) : coldef :=
  {| cd_name := c_name c; cd_type := [type_word_of c];
     cd_cons := (if c_nullable c then [] else [KNotNull]) ++ (if c_pk c then [KPrimary false] else [])
                ++ (if c_unique c then [KUnique] else []) |}.
Definition fk_of (c : AColumn) : list fkdef :=
  match c_ref c with
  | Some (RefLiteral r) => [{| fk_col := c_name c; fk_table := rl_table r; fk_ref := rl_column r |}]
  | _ => []
  end.
Definition create_ast (strict b : bool) (t : ATable) : ddl :=
  CreateTable b (t_name t) (map coldef_of (t_cols t)) (flat_map fk_of (t_cols t)) strict.
Definition rebuild_ast (strict : bool) (old : ATable) (new : ATable) : list ddl :=
  [create_ast strict false new; CopyTable (t_name new) (map c_name (t_cols new)) (t_name old);
   DropTable (t_name old); RenameTable (t_name new) (t_name old)].

Section Ast.
Variable show : f64 -> string.
Definition num_lit (s : string) : literal :=
  match s with
  | String "-" n => LitNum true n
  | n => LitNum false n
  end.
Definition lit_of (v : SqlVal) : literal :=
  match v with
  | VNull => LitWord "NULL"
  | VBool b => LitWord (if b then "true" else "false")
  | VInt i | VBigInt i => num_lit (dec i)
  | VReal r => num_lit (show r)
  | VText s => LitStr s
  | VBlob b => LitHex (hex_upper b)
  | VTimestamp t => LitStr (Time.format_timestamp "T" t)
  | _ => LitWord ""
  end.
Definition with_default (d : coldef) (l : literal) : coldef :=
  {| cd_name := cd_name d; cd_type := cd_type d; cd_cons := cd_cons d ++ [KDefault l] |}.
Definition op_ast (strict : bool) (current : ADB) (op : Operation) : list ddl :=
  match op with
  | AddTable t => [create_ast strict false t]
  | AddTableIfNotExists t => [create_ast strict true t]
  | AddTableConstraints _ | RemoveTableConstraints _ => []
  | RemoveTable n => [DropTable n]
  | AddColumn t c => match column_default c with
                     | Ok v => [AddCol t (with_default (coldef_of c) (lit_of v))]
                     | _ => []
                     end
  | RemoveColumn t n =>
      match get_table current t with
      | Some tb => match col_by_name (t_cols tb) n with
                   | Some c => match c_ref c with
                               | Some _ => rebuild_ast strict tb (remove_column (rename tb (tmp_table_name t)) n)
                               | None => [DropCol t n]
                               end
                   | None => []
                   end
      | None => []
      end
  | ChangeColumn t _ c =>
      match get_table current t with
      | Some tb => rebuild_ast strict tb (replace_column (rename tb (tmp_table_name t)) c)
      | None => []
      end
  end.
Fixpoint ops_ast (strict : bool) (current : ADB) (ops : list Operation) : list ddl :=
  match ops with
  | [] => []
  | o :: r => op_ast strict current o ++ ops_ast strict (transform_with current o) r
  end.
End Ast.

(** * Text *)

Definition nosemi (s : string) : bool := all_chars (fun c => negb (Ascii.eqb c ";")) s.
Lemma nosemi_app a b : nosemi (a ++ b) = nosemi a && nosemi b.
Proof. apply all_chars_app. Qed.
Definition ends_ok (s : string) : Prop := trim_end s = s /\ s <> ""%string.
Lemma ends_ok_app a b : ends_ok b -> ends_ok (a ++ b).
Proof.
  intros [H N]. split; [|destruct a; cbn; [assumption|congruence]].
  induction a as [|c a IH]; [exact H|]. cbn [append trim_end]. rewrite IH. destruct (a ++ b)%string eqn:E; [|reflexivity].
  destruct a; [cbn in E; congruence|discriminate].
Qed.
Lemma ends_ok_all s : all_chars (fun c => negb (is_ws c)) s = true -> s <> ""%string -> ends_ok s.
Proof.
  intros H N. split; [|assumption]. induction s as [|c s IH]; [congruence|]. cbn in H. apply andb_true_iff in H as [Hc H].
  cbn [trim_end]. destruct s as [|c' s].
  - cbn. now destruct (is_ws c).
  - rewrite IH by (assumption || congruence). reflexivity.
Qed.
Lemma word_not_ws c : is_word c = true -> negb (is_ws c) = true.
Proof. destruct c as [[] [] [] [] [] [] [] []]; intros H; try reflexivity; discriminate H. Qed.
Lemma word_not_semi c : is_word c = true -> negb (Ascii.eqb c ";") = true.
Proof. destruct c as [[] [] [] [] [] [] [] []]; intros H; try reflexivity; discriminate H. Qed.
Lemma all_chars_weaken (p p' : ascii -> bool) s : (forall c, p c = true -> p' c = true) -> all_chars p s = true -> all_chars p' s = true.
Proof.
  intros H. induction s as [|c s IH]; [auto|]. cbn. intros [A B]%andb_true_iff. now rewrite (H c A), IH.
Qed.
Lemma identifier_word w : identifier w = true -> all_chars is_word w = true /\ w <> ""%string.
Proof.
  destruct w as [|c w]; [discriminate|]. cbn. intros [A B]%andb_true_iff. split; [|congruence].
  rewrite B. unfold is_word. now rewrite A.
Qed.

Section Render.
Variable d : dialect.
Variable kw : string -> bool.
Variable show : f64 -> string.
Variable read : bool -> string -> f64.
Hypothesis show_ok : display_ok read show.
Notation qq := (q kw).

Lemma q_lexes w : identifier w = true -> lexes (qq w) [qtok kw w].
Proof. intros H r D. now apply lex_q. Qed.
Lemma q_ends w : identifier w = true -> ends_ok (qq w).
Proof.
  intros [A B]%identifier_word. unfold q, quote_reserved_word. destruct (kw w).
  - apply ends_ok_app, ends_ok_app. now split.
  - apply ends_ok_all; [|assumption]. now apply (all_chars_weaken is_word); [apply word_not_ws|].
Qed.
Lemma q_nosemi w : identifier w = true -> nosemi (qq w) = true.
Proof.
  intros [A B]%identifier_word. unfold q, quote_reserved_word, nosemi.
  assert (X : all_chars (fun c => negb (Ascii.eqb c ";")) w = true) by (now apply (all_chars_weaken is_word); [apply word_not_semi|]).
  destruct (kw w); [|assumption]. rewrite !all_chars_app, X. reflexivity.
Qed.
Lemma q_begins w : identifier w = true -> match qq w with String c _ => negb (is_ws c) = true | _ => False end.
Proof.
  intros H. unfold q, quote_reserved_word. destruct (kw w); [reflexivity|]. destruct w as [|c w]; [discriminate|].
  cbn in H. apply andb_true_iff in H as [H _]. apply word_not_ws. unfold is_word. now rewrite H.
Qed.

(** A text without semicolons that reads as the tokens. *)
Definition part (s : string) (ts : list tok) : Prop := lexes s ts /\ nosemi s = true.
Definition fixed (s : string) (ts : list tok) : Prop := reads s ts /\ nosemi s = true.
Lemma part_q w : identifier w = true -> part (qq w) [qtok kw w].
Proof. split; [now apply q_lexes|now apply q_nosemi]. Qed.
Lemma part_after s ts u us : fixed s ts -> part u us -> part (s ++ u) (ts ++ us).
Proof. intros [A B] [C D]. split; [now apply lexes_after|]. now rewrite nosemi_app, B, D. Qed.
Lemma part_app s ts u us : part s ts -> begins_delim u -> part u us -> part (s ++ u) (ts ++ us).
Proof. intros [A B] E [C D]. split; [now apply lexes_app|]. now rewrite nosemi_app, B, D. Qed.
Lemma fixed_part s ts : fixed s ts -> part s ts.
Proof. intros [A B]. split; [now apply reads_lexes|assumption]. Qed.
Lemma part_eq s ts ts' : part s ts -> ts = ts' -> part s ts'.
Proof. now intros H <-. Qed.
Lemma part_fixed s pre a : (forall r, lex_from LStart (s ++ r) = pre ++ lex_from (LWord a) r) -> nosemi s = true -> part s (pre ++ [TWord a]).
Proof. split; [now apply lexes_fixed|assumption]. Qed.
Lemma part_join sep st l ts : begins_delim sep -> fixed sep st -> Forall2 part l ts -> l <> [] ->
  part (join sep l) (seps st ts).
Proof.
  intros B [R S] H N. split.
  - apply lexes_join; try assumption. clear N. induction H as [|x t l ts [A _] H IH]; constructor; assumption.
  - clear N. induction H as [|x t l ts [_ A] H IH]; [reflexivity|]. destruct l as [|y l]; [assumption|].
    change (join sep (x :: y :: l)) with (x ++ sep ++ join sep (y :: l))%string.
    now rewrite !nosemi_app, A, S, IH.
Qed.

Lemma type_word_fine c : column_fine c -> sqlite_col_type c = Ok (type_word_of c)
  /\ In (type_word_of c) ["INTEGER"; "REAL"; "TEXT"; "BLOB"]%string.
Proof.
  intros (_ & (t & E & N) & _). unfold sqlite_col_type, typeid, type_word_of.
  assert (X : match c_type c with KnownId t0 => Ok t0 | Known t0 => Ok (TyId t0) | Deferred k => Err (UnknownSqlType (typekey_display k)) end
              = Ok (TyId t)) by (destruct (c_type c); cbn in E; congruence).
  rewrite X, E. destruct t; cbn [sqlite_type]; try (split; [reflexivity|cbn; tauto]).
  exfalso. now apply (N name).
Qed.
Lemma word_part w : In w ["INTEGER"; "REAL"; "TEXT"; "BLOB"]%string -> part w [TWord w].
Proof.
  intros H. cbn in H. repeat destruct H as [<-|H]; try contradiction; apply (part_fixed _ []); reflexivity.
Qed.
Lemma constraints_part c : column_fine c -> sqlite_constraints c <> [] ->
  part (join " " (sqlite_constraints c)) (flat_map cons_toks (cd_cons (coldef_of c))).
Proof.
  intros (_ & _ & A & _). unfold sqlite_constraints, coldef_of. cbn [cd_cons].
  destruct (c_nullable c), (c_pk c) eqn:P, (c_auto c), (c_unique c); cbn [andb negb List.app flat_map cons_toks join];
    intros N; try congruence; try (specialize (A eq_refl); discriminate).
  all: match goal with |- part ?s ?l => let l' := eval cbn in l in change (part s l') end.
  all: match goal with
       | |- part _ [?a; ?b; ?c; ?d; TWord ?w] => apply (part_fixed _ [a; b; c; d] w)
       | |- part _ [?a; ?b; ?c; TWord ?w] => apply (part_fixed _ [a; b; c] w)
       | |- part _ [?a; ?b; TWord ?w] => apply (part_fixed _ [a; b] w)
       | |- part _ [?a; TWord ?w] => apply (part_fixed _ [a] w)
       | |- part _ [TWord ?w] => apply (part_fixed _ [] w)
       end; reflexivity.
Qed.
Lemma space_fixed : fixed " " [].
Proof. split; [intros r|]; reflexivity. Qed.
Lemma coldef_part c : column_fine c -> exists s, sqlite_define_column kw c = Ok s /\ part s (coldef_toks kw (coldef_of c)).
Proof.
  intros H. destruct (type_word_fine c H) as [E W]. unfold sqlite_define_column. rewrite E. cbn [obind].
  pose proof (word_part _ W) as P. pose proof (proj1 H) as Hn.
  destruct (sqlite_constraints c) as [|k ks] eqn:K.
  - eexists. split; [reflexivity|]. eapply part_eq.
    + apply part_app; [now apply part_q|reflexivity|]. apply part_after; [apply space_fixed|exact P].
    + unfold coldef_toks. cbn [coldef_of cd_name cd_type cd_cons map List.app]. do 2 f_equal.
      unfold sqlite_constraints in K. destruct (c_nullable c), (c_pk c), (c_unique c); cbn in K |- *; try discriminate; try reflexivity.
      all: destruct (c_auto c); discriminate.
  - eexists. split; [reflexivity|]. rewrite <- K. eapply part_eq.
    + apply part_app; [now apply part_q|reflexivity|]. apply part_after; [apply space_fixed|].
      apply part_app; [exact P|reflexivity|]. apply part_after; [apply space_fixed|].
      apply constraints_part; [assumption|congruence].
    + reflexivity.
Qed.
Lemma coldefs_part cs : Forall column_fine cs ->
  exists l, omapm (sqlite_define_column kw) cs = Ok l /\ Forall2 part l (map (coldef_toks kw) (map coldef_of cs)).
Proof.
  induction 1 as [|c cs H Hs (l & E & F)]; [exists []; split; [reflexivity|constructor]|].
  destruct (coldef_part c H) as (s & E' & P). exists (s :: l). cbn [omapm]. rewrite E'. cbn [obind]. rewrite E. split; [reflexivity|].
  now constructor.
Qed.
Lemma fk_part c : column_fine c -> c_ref c <> None -> exists s f, sqlite_define_constraint kw c = Ok s /\ fk_of c = [f]
  /\ part s (tfk_toks kw f) /\ s <> ""%string.
Proof.
  intros (Hn & _ & _ & Hr) N. unfold sqlite_define_constraint, fk_of. destruct (c_ref c) as [[r|]|]; try contradiction; try congruence.
  destruct Hr as [Ht Hc]. do 2 eexists. split; [reflexivity|]. split; [reflexivity|]. split.
  - eapply part_eq.
    + apply (part_after "FOREIGN KEY (" [TWord "FOREIGN"; TWord "KEY"; TLP]); [split; [intros x|]; reflexivity|].
      apply part_app; [now apply part_q|reflexivity|].
      apply (part_after ") REFERENCES " [TRP; TWord "REFERENCES"]); [split; [intros x|]; reflexivity|].
      apply part_app; [now apply part_q|reflexivity|].
      apply (part_after "(" [TLP]); [split; [intros x|]; reflexivity|].
      apply part_app; [now apply part_q|reflexivity|].
      apply fixed_part. instantiate (1 := [TRP]). split; [intros x|]; reflexivity.
    + reflexivity.
  - discriminate.
Qed.
Lemma fks_part cs : Forall column_fine cs ->
  exists l, omapm (sqlite_define_constraint kw) (filter (fun c => match c_ref c with Some _ => true | None => false end) cs) = Ok l
    /\ Forall2 part l (map (tfk_toks kw) (flat_map fk_of cs)) /\ Forall (fun s => s <> ""%string) l.
Proof.
  induction 1 as [|c cs H Hs (l & E & F & G)]; [exists []; repeat split; constructor|]. cbn [filter flat_map].
  destruct (c_ref c) as [r|] eqn:R.
  - destruct (fk_part c H) as (s & f & E' & K & P & N); [congruence|]. exists (s :: l). cbn [omapm]. rewrite E'. cbn [obind]. rewrite E, K.
    split; [reflexivity|]. cbn. split; now constructor.
  - exists l. assert (K : fk_of c = []) by (unfold fk_of; now rewrite R). rewrite K. now split.
Qed.

(** * Statements *)

(** A statement's text without its semicolon. *)
Definition statement (sep : list tok) (s : string) (x : ddl) : Prop :=
  lexes s (ddl_toks kw sep x) /\ ends_ok s
  /\ match s with String c _ => negb (is_ws c) = true | "" => False end
  /\ ddl_ok d x.

Lemma nl_fixed : fixed nl [].
Proof. split; [intros r|]; reflexivity. Qed.
Lemma comma_nl_fixed : fixed ("," ++ nl) [TComma].
Proof. split; [intros r|]; reflexivity. Qed.
Lemma join_nonempty sep l s : s <> ""%string -> join sep (s :: l) <> ""%string.
Proof. intros H. destruct s; [congruence|]. destruct l; discriminate. Qed.

Lemma cols_ok cs : Forall column_fine cs -> Forall col_ok (map coldef_of cs).
Proof.
  intros H. apply Forall_map. eapply Forall_impl; [|exact H]. intros c Hc. destruct (type_word_fine c Hc) as [_ W].
  constructor; [|constructor]. unfold type_word. cbn in W. repeat destruct W as [<-|W]; try contradiction; reflexivity.
Qed.
Lemma create_ok strict b t : table_fine t -> ddl_ok d (create_ast strict b t).
Proof.
  intros (_ & N & F). split; [|now apply cols_ok]. intros E. apply map_eq_nil in E. contradiction.
Qed.

Lemma sqlite_create_statement t b : table_fine t ->
  exists s, sqlite_create_table kw t b = Ok (s ++ ";")%string /\ statement [] s (create_ast true b t) /\ nosemi s = true.
Proof.
  intros H. pose proof H as (Hn & Ne & F). destruct (coldefs_part _ F) as (l & El & Pl). destruct (fks_part _ F) as (k & Ek & Pk & Nk).
  unfold sqlite_create_table, sqlite_table_constraints, with_ref_cols. rewrite El. cbn [obind]. rewrite Ek. cbn [obind].
  set (cs := if String.eqb (join nl k) "" then join nl k else ("," ++ nl ++ join nl k)%string).
  exists ("CREATE TABLE " ++ (if b then "IF NOT EXISTS " else "") ++ qq (t_name t) ++ " (" ++ nl ++ join ("," ++ nl) l ++ cs ++ nl ++ ") STRICT")%string.
  assert (Nl : l <> []).
  { intros ->. cbn in Pl. inversion Pl as [E|]. destruct (t_cols t); [congruence|discriminate]. }
  assert (B : cs = ""%string \/ begins_delim cs).
  { unfold cs. destruct (String.eqb_spec (join nl k) ""); [now left|right; reflexivity]. }
  assert (P : part cs (match flat_map fk_of (t_cols t) with [] => [] | _ => TComma :: seps [] (map (tfk_toks kw) (flat_map fk_of (t_cols t))) end)).
  { unfold cs. destruct (flat_map fk_of (t_cols t)) as [|f fs].
    - inversion Pk; subst. cbn. apply fixed_part. split; [intros r|]; reflexivity.
    - inversion Pk as [|x ts k' ks Px Pk' E1 E2]; subst k ts ks. inversion Nk; subst.
      destruct (String.eqb_spec (join nl (x :: k')) "") as [E|]; [now apply join_nonempty in E|].
      change ("," ++ nl ++ join nl (x :: k'))%string with (("," ++ nl) ++ join nl (x :: k'))%string.
      apply (part_after ("," ++ nl) [TComma]); [apply comma_nl_fixed|].
      apply part_join; [reflexivity|apply nl_fixed|assumption|congruence]. }
  assert (Q : part ("CREATE TABLE " ++ (if b then "IF NOT EXISTS " else "") ++ qq (t_name t) ++ " (" ++ nl ++ join ("," ++ nl) l ++ cs ++ nl ++ ") STRICT")
                (ddl_toks kw [] (create_ast true b t))).
  { eapply part_eq.
    - apply (part_after "CREATE TABLE " [TWord "CREATE"; TWord "TABLE"]); [split; [intros x|]; reflexivity|].
      apply (part_after _ (if b then [TWord "IF"; TWord "NOT"; TWord "EXISTS"] else [])); [destruct b; (split; [intros x|]; reflexivity)|].
      apply part_app; [now apply part_q|reflexivity|].
      apply (part_after " (" [TLP]); [split; [intros x|]; reflexivity|].
      apply (part_after nl []); [apply nl_fixed|].
      apply part_app; [apply (part_join ("," ++ nl) [TComma]); [reflexivity|apply comma_nl_fixed|exact Pl|exact Nl]| |].
      + destruct B as [->|B]; [reflexivity|]. destruct cs; [contradiction|exact B].
      + apply part_app; [exact P|reflexivity|].
        apply (part_after nl []); [apply nl_fixed|]. apply (part_fixed _ [TRP] "STRICT"); reflexivity.
    - unfold create_ast. cbn [ddl_toks]. cbn [List.app]. do 2 f_equal. f_equal. cbn [List.app]. do 2 f_equal.
      unfold items_toks. rewrite <- !app_assoc. reflexivity. }
  split; [|split; [|apply Q]].
  - rewrite <- !str_app_assoc. reflexivity.
  - split; [apply Q|]. split; [|split; [reflexivity|now apply create_ok]].
    repeat apply ends_ok_app. split; [reflexivity|discriminate].
Qed.

Lemma turso_create_statement t b : table_fine t ->
  exists s, turso_create_table kw t b = Ok (s ++ ";")%string /\ statement [TComma] s (create_ast false b t) /\ nosemi s = true.
Proof.
  intros H. pose proof H as (Hn & Ne & F). destruct (coldefs_part _ F) as (l & El & Pl). destruct (fks_part _ F) as (k & Ek & Pk & Nk).
  unfold turso_create_table, with_ref_cols. rewrite El. cbn [obind]. rewrite Ek. cbn [obind].
  assert (Nl : l <> []).
  { intros ->. cbn in Pl. inversion Pl as [E|]. destruct (t_cols t); [congruence|discriminate]. }
  set (toks := map (coldef_toks kw) (map coldef_of (t_cols t)) ++ map (tfk_toks kw) (flat_map fk_of (t_cols t))).
  assert (PP : Forall2 part (l ++ k) toks) by (now apply Forall2_app).
  assert (Np : l ++ k <> []) by (destruct l; [congruence|discriminate]).
  set (prefix := ((if b then "CREATE TABLE IF NOT EXISTS " else "CREATE TABLE ") ++ qq (t_name t) ++ " (")%string).
  assert (X : forall a z body, part body (seps [TComma] toks) -> fixed a [] -> fixed z [TRP] -> begins_delim z -> ends_ok z ->
    statement [TComma] (prefix ++ a ++ body ++ z) (create_ast false b t) /\ nosemi (prefix ++ a ++ body ++ z) = true).
  { intros a z body Pb Fa Fz Bz Ez.
    assert (Q : part (prefix ++ a ++ body ++ z) (ddl_toks kw [TComma] (create_ast false b t))).
    { unfold prefix. rewrite <- !str_app_assoc. eapply part_eq.
      - apply (part_after _ ([TWord "CREATE"; TWord "TABLE"] ++ if b then [TWord "IF"; TWord "NOT"; TWord "EXISTS"] else [])).
        { destruct b; (split; [intros x|]; reflexivity). }
        apply part_app; [now apply part_q|reflexivity|].
        apply (part_after " (" [TLP]); [split; [intros x|]; reflexivity|].
        apply part_after; [exact Fa|]. apply part_app; [exact Pb|exact Bz|]. apply fixed_part. exact Fz.
      - unfold create_ast. cbn [ddl_toks]. cbn [List.app]. do 2 f_equal. f_equal. cbn [List.app]. do 2 f_equal.
        f_equal. unfold items_toks, toks.
        assert (Y : map coldef_of (t_cols t) <> []) by (intros E; apply map_eq_nil in E; contradiction).
        clear - Y. revert Y. generalize (map coldef_of (t_cols t)) as cs. generalize (flat_map fk_of (t_cols t)) as fs. intros fs cs.
        induction cs as [|c cs IH]; [congruence|]. intros _. destruct cs as [|c' cs].
        + cbn [map seps List.app]. destruct fs; [cbn; now rewrite app_nil_r|reflexivity].
        + specialize (IH ltac:(congruence)).
          change (seps [TComma] (map (coldef_toks kw) (c :: c' :: cs) ++ map (tfk_toks kw) fs))
            with (coldef_toks kw c ++ [TComma] ++ seps [TComma] (map (coldef_toks kw) (c' :: cs) ++ map (tfk_toks kw) fs)).
          rewrite IH. change (seps [TComma] (map (coldef_toks kw) (c :: c' :: cs)))
            with (coldef_toks kw c ++ [TComma] ++ seps [TComma] (map (coldef_toks kw) (c' :: cs))).
          now rewrite <- !app_assoc. }
    split; [|apply Q]. split; [apply Q|]. split; [|split; [|now apply create_ok]].
    - rewrite !str_app_assoc. apply ends_ok_app, Ez.
    - unfold prefix. destruct b; reflexivity. }
  cbv zeta. fold prefix. destruct (Nat.leb_spec (String.length (prefix ++ join ", " (l ++ k) ++ ");")) 120) as [L|L].
  - destruct (X "" ")" (join ", " (l ++ k)))%string as [S N].
    + apply (part_join ", " [TComma]); [reflexivity|split; [intros r|]; reflexivity|exact PP|exact Np].
    + split; [intros r|]; reflexivity.
    + split; [intros r|]; reflexivity.
    + reflexivity.
    + split; [reflexivity|discriminate].
    + exists (prefix ++ "" ++ join ", " (l ++ k) ++ ")")%string. split; [|now split].
      cbn [append]. now rewrite <- !str_app_assoc.
  - destruct (X nl (nl ++ ")") (join ("," ++ nl) (map (fun s => "    " ++ s) (l ++ k))))%string as [S N].
    + apply (part_join ("," ++ nl) [TComma]); [reflexivity|apply comma_nl_fixed| |].
      * clear - PP. induction PP as [|x ts l' tss Hx Hl IH]; constructor; [|exact IH].
        apply (part_after "    " []); [split; [intros r|]; reflexivity|exact Hx].
      * intros E. apply map_eq_nil in E. contradiction.
    + apply nl_fixed.
    + split; [intros r|]; reflexivity.
    + reflexivity.
    + split; [reflexivity|discriminate].
    + eexists. split; [|split; [exact S|exact N]]. rewrite <- !str_app_assoc. reflexivity.
Qed.

Lemma names_part sep st cs : begins_delim sep -> fixed sep st -> Forall (fun c => identifier c = true) cs -> cs <> [] ->
  part (join sep (map qq cs)) (seps st (map (fun c => [qtok kw c]) cs)).
Proof.
  intros B F H N. apply part_join; [assumption|assumption| |intros E; apply map_eq_nil in E; contradiction].
  clear N. induction H as [|c cs Hc H IH]; constructor; [now apply part_q|exact IH].
Qed.
Lemma copy_ok t cs u : cs <> [] -> ddl_ok d (CopyTable t cs u).
Proof. auto. Qed.
Lemma fine_names t : table_fine t -> Forall (fun c => identifier c = true) (map c_name (t_cols t)) /\ map c_name (t_cols t) <> [].
Proof.
  intros (_ & N & F). split; [|intros E; apply map_eq_nil in E; contradiction].
  apply Forall_map. eapply Forall_impl; [|exact F]. intros c Hc. apply Hc.
Qed.
Lemma sqlite_copy_statement old new : identifier (t_name old) = true -> table_fine new ->
  exists s, sqlite_copy_table kw old new = (s ++ ";")%string
    /\ statement [] s (CopyTable (t_name new) (map c_name (t_cols new)) (t_name old)) /\ nosemi s = true.
Proof.
  intros Ho Hn. destruct (fine_names new Hn) as [Fn Nn].
  exists ("INSERT INTO " ++ qq (t_name new) ++ " SELECT " ++ join ", " (map qq (map c_name (t_cols new))) ++ " FROM " ++ qq (t_name old))%string.
  split.
  { unfold sqlite_copy_table. rewrite map_map. now rewrite <- !str_app_assoc. }
  assert (Q : part ("INSERT INTO " ++ qq (t_name new) ++ " SELECT " ++ join ", " (map qq (map c_name (t_cols new))) ++ " FROM " ++ qq (t_name old))
    (ddl_toks kw [] (CopyTable (t_name new) (map c_name (t_cols new)) (t_name old)))).
  { eapply part_eq.
    - apply (part_after "INSERT INTO " [TWord "INSERT"; TWord "INTO"]); [split; [intros x|]; reflexivity|].
      apply part_app; [apply part_q, Hn|reflexivity|].
      apply (part_after " SELECT " [TWord "SELECT"]); [split; [intros x|]; reflexivity|].
      apply part_app; [apply (names_part ", " [TComma]); [reflexivity|split; [intros x|]; reflexivity|exact Fn|exact Nn]|reflexivity|].
      apply (part_after " FROM " [TWord "FROM"]); [split; [intros x|]; reflexivity|]. now apply part_q.
    - reflexivity. }
  split; [|apply Q]. split; [apply Q|]. split; [|split; [reflexivity|now apply copy_ok]].
  repeat apply ends_ok_app. now apply q_ends.
Qed.
Lemma turso_copy_statement old new : identifier (t_name old) = true -> table_fine new ->
  exists s, turso_copy_table kw old new = (s ++ ";")%string
    /\ statement [TComma] s (CopyTable (t_name new) (map c_name (t_cols new)) (t_name old)) /\ nosemi s = true.
Proof.
  intros Ho Hn. destruct (fine_names new Hn) as [Fn Nn]. unfold turso_copy_table. cbv zeta. rewrite <- map_map.
  destruct (Nat.leb _ 120).
  - destruct (sqlite_copy_statement old new Ho Hn) as (s & E & (L & R) & N). unfold sqlite_copy_table in E. rewrite <- map_map in E.
    exists s. split; [exact E|]. split; [|exact N]. split; [exact L|exact R].
  - exists ("INSERT INTO " ++ qq (t_name new) ++ " SELECT" ++ nl ++ "    " ++ join ("," ++ nl ++ "    ") (map qq (map c_name (t_cols new))) ++ nl ++ "FROM " ++ qq (t_name old))%string.
    split; [now rewrite <- !str_app_assoc|].
    assert (Q : part ("INSERT INTO " ++ qq (t_name new) ++ " SELECT" ++ nl ++ "    " ++ join ("," ++ nl ++ "    ") (map qq (map c_name (t_cols new))) ++ nl ++ "FROM " ++ qq (t_name old))
      (ddl_toks kw [TComma] (CopyTable (t_name new) (map c_name (t_cols new)) (t_name old)))).
    { eapply part_eq.
      - apply (part_after "INSERT INTO " [TWord "INSERT"; TWord "INTO"]); [split; [intros x|]; reflexivity|].
        apply part_app; [apply part_q, Hn|reflexivity|].
        apply part_app; [apply (part_fixed " SELECT" [] "SELECT"); reflexivity|reflexivity|].
        apply (part_after nl []); [apply nl_fixed|]. apply (part_after "    " []); [split; [intros x|]; reflexivity|].
        apply part_app; [apply (names_part ("," ++ nl ++ "    ") [TComma]); [reflexivity|split; [intros x|]; reflexivity|exact Fn|exact Nn]|reflexivity|].
        apply (part_after nl []); [apply nl_fixed|].
        apply (part_after "FROM " [TWord "FROM"]); [split; [intros x|]; reflexivity|]. now apply part_q.
      - reflexivity. }
    split; [|apply Q]. split; [apply Q|]. split; [|split; [reflexivity|now apply copy_ok]].
    repeat apply ends_ok_app. now apply q_ends.
Qed.
Lemma drop_statement sep n : identifier n = true ->
  exists s, sqlite_drop_table kw n = (s ++ ";")%string /\ statement sep s (DropTable n) /\ nosemi s = true.
Proof.
  intros H. exists ("DROP TABLE " ++ qq n)%string. split; [unfold sqlite_drop_table; now rewrite <- !str_app_assoc|].
  assert (Q : part ("DROP TABLE " ++ qq n) (ddl_toks kw sep (DropTable n))).
  { eapply part_eq.
    - apply (part_after "DROP TABLE " [TWord "DROP"; TWord "TABLE"]); [split; [intros x|]; reflexivity|]. now apply part_q.
    - reflexivity. }
  split; [|apply Q]. split; [apply Q|]. split; [|split; [reflexivity|exact I]]. apply ends_ok_app, q_ends, H.
Qed.
Lemma rename_statement sep n m : identifier n = true -> identifier m = true ->
  exists s, ("ALTER TABLE " ++ qq n ++ " RENAME TO " ++ qq m ++ ";" = s ++ ";")%string
    /\ statement sep s (RenameTable n m) /\ nosemi s = true.
Proof.
  intros H K. exists ("ALTER TABLE " ++ qq n ++ " RENAME TO " ++ qq m)%string. split; [now rewrite <- !str_app_assoc|].
  assert (Q : part ("ALTER TABLE " ++ qq n ++ " RENAME TO " ++ qq m) (ddl_toks kw sep (RenameTable n m))).
  { eapply part_eq.
    - apply (part_after "ALTER TABLE " [TWord "ALTER"; TWord "TABLE"]); [split; [intros x|]; reflexivity|].
      apply part_app; [now apply part_q|reflexivity|].
      apply (part_after " RENAME TO " [TWord "RENAME"; TWord "TO"]); [split; [intros x|]; reflexivity|]. now apply part_q.
    - reflexivity. }
  split; [|apply Q]. split; [apply Q|]. split; [|split; [reflexivity|exact I]]. repeat apply ends_ok_app. now apply q_ends.
Qed.
Lemma dropcol_statement sep n m : identifier n = true -> identifier m = true ->
  exists s, ("ALTER TABLE " ++ qq n ++ " DROP COLUMN " ++ qq m ++ ";" = s ++ ";")%string
    /\ statement sep s (DropCol n m) /\ nosemi s = true.
Proof.
  intros H K. exists ("ALTER TABLE " ++ qq n ++ " DROP COLUMN " ++ qq m)%string. split; [now rewrite <- !str_app_assoc|].
  assert (Q : part ("ALTER TABLE " ++ qq n ++ " DROP COLUMN " ++ qq m) (ddl_toks kw sep (DropCol n m))).
  { eapply part_eq.
    - apply (part_after "ALTER TABLE " [TWord "ALTER"; TWord "TABLE"]); [split; [intros x|]; reflexivity|].
      apply part_app; [now apply part_q|reflexivity|].
      apply (part_after " DROP COLUMN " [TWord "DROP"; TWord "COLUMN"]); [split; [intros x|]; reflexivity|]. now apply part_q.
    - reflexivity. }
  split; [|apply Q]. split; [apply Q|]. split; [|split; [reflexivity|exact I]]. repeat apply ends_ok_app. now apply q_ends.
Qed.

Lemma digits_num s : all_chars is_digit s = true -> num_lit s = LitNum false s.
Proof.
  destruct s as [|c s]; [reflexivity|]. cbn. intros [H _]%andb_true_iff.
  destruct c as [[] [] [] [] [] [] [] []]; try reflexivity; discriminate H.
Qed.
Lemma dec_lit z : lit_toks (num_lit (dec z)) = znum z.
Proof.
  unfold dec, znum, NilEmpty.string_of_int. destruct (Z.to_int z) as [u|u]; [|reflexivity].
  rewrite digits_num by apply digits_uint. reflexivity.
Qed.
Lemma digit_clean c : is_digit c || Ascii.eqb c "." = true -> negb (Ascii.eqb c ";") = true /\ negb (is_ws c) = true.
Proof. destruct c as [[] [] [] [] [] [] [] []]; intros H; try discriminate H; split; reflexivity. Qed.
Lemma dec_clean z : nosemi (dec z) = true /\ ends_ok (dec z).
Proof.
  unfold dec, NilEmpty.string_of_int. pose proof (to_int_nonnil z) as N.
  assert (X : forall u, u <> Decimal.Nil -> nosemi (NilEmpty.string_of_uint u) = true /\ ends_ok (NilEmpty.string_of_uint u)).
  { intros u Hu. split.
    - apply (all_chars_weaken is_digit); [|apply digits_uint]. intros c Hc. apply digit_clean. now rewrite Hc.
    - apply ends_ok_all; [|now apply string_uint_nonempty]. apply (all_chars_weaken is_digit); [|apply digits_uint].
      intros c Hc. apply digit_clean. now rewrite Hc. }
  destruct (Z.to_int z) as [u|u]; [now apply X|]. destruct (X u N) as [A B]. split; [exact A|].
  change (String "-" (NilEmpty.string_of_uint u)) with ("-" ++ NilEmpty.string_of_uint u)%string. now apply ends_ok_app.
Qed.
Lemma digit_char_nosemi z : (0 <= z < 10)%Z -> negb (Ascii.eqb (Time.digit_char z) ";") = true.
Proof.
  intros H. destruct (Ascii.eqb_spec (Time.digit_char z) ";") as [E|]; [|reflexivity].
  pose proof (Time.digit_of_char z H) as Q. rewrite E in Q. discriminate Q.
Qed.
Lemma pad_nosemi w : forall z, nosemi (Time.pad w z) = true.
Proof.
  induction w as [|w IH]; intros z; [reflexivity|]. cbn [Time.pad]. rewrite nosemi_app, IH. cbn [andb].
  unfold nosemi. cbn [all_chars]. rewrite digit_char_nosemi by (apply Z.mod_pos_bound; lia). reflexivity.
Qed.
Lemma timestamp_nosemi t : nosemi (Time.format_timestamp "T" t) = true.
Proof.
  unfold Time.format_timestamp, Time.format_date, Time.format_year, Time.year_digits, Time.format_time, Time.format_nano.
  rewrite !nosemi_app.
  repeat match goal with |- context [if ?b then _ else _] => destruct b end; rewrite ?nosemi_app, ?pad_nosemi; reflexivity.
Qed.
Lemma hex_nosemi b : nosemi (hex_upper b) = true.
Proof.
  assert (X : forall n, (0 <= n < 16)%Z -> negb (Ascii.eqb (hex_digit n) ";") = true).
  { intros n H. assert (n = 0 \/ n = 1 \/ n = 2 \/ n = 3 \/ n = 4 \/ n = 5 \/ n = 6 \/ n = 7 \/ n = 8 \/ n = 9
      \/ n = 10 \/ n = 11 \/ n = 12 \/ n = 13 \/ n = 14 \/ n = 15)%Z as C by lia.
    repeat (destruct C as [->|C]; [reflexivity|]). subst. reflexivity. }
  induction b as [|c b IH]; [reflexivity|]. cbn [hex_upper]. set (n := Z.of_N (N_of_ascii c)).
  assert (B : (0 <= n < 256)%Z) by (unfold n; pose proof (N_ascii_bounded c); lia).
  pose proof (Z_div_mod_eq_full n 16). pose proof (Z.mod_pos_bound n 16).
  unfold nosemi in *. cbn [all_chars]. rewrite !X, IH by lia. reflexivity.
Qed.
Lemma quoted_ends s : ends_ok (s ++ "'").
Proof. apply ends_ok_app. split; [reflexivity|discriminate]. Qed.
Lemma literal_part v : readable_literal v -> exists s, sql_literal_value show v = Ok s
  /\ lexes s (lit_toks (lit_of show v)) /\ ends_ok s /\ ((forall t, v = VText t -> nosemi t = true) -> nosemi s = true).
Proof.
  intros R. destruct v as [|b|i|i|r|s|b|j|dt|t|ty da]; cbn [readable_literal] in R; try contradiction;
    cbn [sql_literal_value lit_of]; (eexists; split; [reflexivity|]).
  - split; [now apply lexes_word|]. split; [split; [reflexivity|discriminate]|reflexivity].
  - destruct b; (split; [now apply lexes_word|]; split; [split; [reflexivity|discriminate]|reflexivity]).
  - rewrite dec_lit. split; [intros r D; now apply lex_dec|]. destruct (dec_clean i). now split.
  - rewrite dec_lit. split; [intros r D; now apply lex_dec|]. destruct (dec_clean i). now split.
  - destruct (proj1 show_ok r R) as (neg & n & E & N & Rd). rewrite E.
    assert (A : nosemi n = true /\ ends_ok n).
    { destruct N as (c & m & -> & Hc & Hm). split.
      - unfold nosemi. cbn [all_chars]. rewrite (proj1 (digit_clean c ltac:(now rewrite Hc))). cbn [andb].
        eapply all_chars_weaken; [|exact Hm]. intros x Hx. now apply digit_clean.
      - apply ends_ok_all; [|discriminate]. cbn [all_chars]. rewrite (proj2 (digit_clean c ltac:(now rewrite Hc))). cbn [andb].
        eapply all_chars_weaken; [|exact Hm]. intros x Hx. now apply digit_clean. }
    destruct A as [A1 A2]. destruct neg.
    + split; [|split; [now apply ends_ok_app|intros _; exact A1]]. apply (lexes_after "-" [TMinus]); [intros x; reflexivity|].
      intros x Dx. now apply lex_numeral.
    + cbn [append]. split; [|now split]. replace (num_lit n) with (LitNum false n).
      * intros x Dx. now apply lex_numeral.
      * destruct N as (c & m & -> & Hc & _). destruct c as [[] [] [] [] [] [] [] []]; try reflexivity; discriminate Hc.
  - split; [intros r D; rewrite <- !str_app_assoc; now apply lex_string|]. split; [apply (ends_ok_app "'"), quoted_ends|].
    intros H. rewrite !nosemi_app, (H s eq_refl). reflexivity.
  - split.
    + intros r D. rewrite <- !str_app_assoc. cbn [lit_toks].
      change ("x'" ++ hex_upper b ++ "'" ++ r)%string with (String "x" ("'" ++ hex_upper b ++ "'" ++ r)).
      cbn [lex_from]. change (lstep LStart "x") with (@nil tok, LWord "x"). cbn [fst snd List.app].
      change (lex_from (LWord "x") ("'" ++ hex_upper b ++ "'" ++ r)) with (TWord "x" :: lex_from LStart ("'" ++ hex_upper b ++ "'" ++ r)).
      f_equal. apply lex_string; [apply hex_roundtrip|assumption].
    + split; [apply (ends_ok_app "x'"), quoted_ends|]. intros _. now rewrite !nosemi_app, hex_nosemi.
  - split; [intros r D; rewrite <- !str_app_assoc; apply lex_string; [apply timestamp_unquoted|assumption]|].
    split; [apply (ends_ok_app "'"), quoted_ends|]. intros _. now rewrite !nosemi_app, timestamp_nosemi.
Qed.
Lemma coldef_col_ok c : column_fine c -> col_ok (coldef_of c).
Proof. intros H. assert (X := cols_ok [c] (Forall_cons _ H (Forall_nil _))). now inversion X. Qed.
Lemma addcol_statement sep t c v : identifier t = true -> column_fine c -> column_default c = Ok v -> readable_literal v ->
  exists s, sqlite_add_column kw show t c = Ok (s ++ ";")%string
    /\ statement sep s (AddCol t (with_default (coldef_of c) (lit_of show v)))
    /\ ((forall w, v = VText w -> nosemi w = true) -> nosemi s = true).
Proof.
  intros Ht Hc Hv R. unfold sqlite_add_column. rewrite Hv. cbn [obind]. destruct (coldef_part c Hc) as (def & Ed & Pd). rewrite Ed. cbn [obind].
  destruct (literal_part v R) as (l & El & Ll & Enl & Nl). rewrite El. cbn [obind].
  exists ("ALTER TABLE " ++ qq t ++ " ADD COLUMN " ++ def ++ " DEFAULT " ++ l)%string.
  split; [now rewrite <- !str_app_assoc|]. split; [split|].
  - assert (Q : lexes ("ALTER TABLE " ++ qq t ++ " ADD COLUMN " ++ def ++ " DEFAULT " ++ l)
      ([TWord "ALTER"; TWord "TABLE"] ++ [qtok kw t] ++ [TWord "ADD"; TWord "COLUMN"] ++ coldef_toks kw (coldef_of c) ++ [TWord "DEFAULT"] ++ lit_toks (lit_of show v))).
    { apply lexes_after; [intros x; reflexivity|]. apply lexes_app; [now apply q_lexes|reflexivity|].
      apply lexes_after; [intros x; reflexivity|]. apply lexes_app; [apply Pd|reflexivity|]. apply lexes_after; [intros x; reflexivity|exact Ll]. }
    assert (E : ddl_toks kw sep (AddCol t (with_default (coldef_of c) (lit_of show v)))
      = [TWord "ALTER"; TWord "TABLE"] ++ [qtok kw t] ++ [TWord "ADD"; TWord "COLUMN"] ++ coldef_toks kw (coldef_of c) ++ [TWord "DEFAULT"] ++ lit_toks (lit_of show v)).
    { cbn [ddl_toks List.app]. do 5 f_equal. unfold coldef_toks, with_default. cbn [cd_name cd_type cd_cons List.app]. f_equal.
      rewrite <- app_assoc. f_equal. rewrite flat_map_app. cbn [flat_map cons_toks]. now rewrite app_nil_r. }
    now rewrite E.
  - split; [repeat apply ends_ok_app; exact Enl|]. split; [reflexivity|]. exact (coldef_col_ok c Hc).
  - intros H. rewrite !nosemi_app, q_nosemi, (proj2 Pd), (Nl H) by assumption. reflexivity.
Qed.
End Render.

(** * Operations and scripts *)

Lemma mput_mput {K V} `{OrdKey K} (k : K) (v w : V) (m : smap K V) : mput k v (mput k w m) = mput k v m.
Proof.
  induction m as [|[x u] m IH]; cbn.
  - now rewrite (proj2 (kcmp_eq k k) eq_refl).
  - destruct (kcmp k x) eqn:E; cbn.
    + now rewrite (proj2 (kcmp_eq k k) eq_refl).
    + now rewrite (proj2 (kcmp_eq k k) eq_refl).
    + now rewrite E, IH.
Qed.
Lemma mget_mput_eq {K V} `{OrdKey K} (k : K) (v : V) (m : smap K V) : mget k (mput k v m) = Some v.
Proof.
  induction m as [|[x u] m IH]; cbn; unfold keqb.
  - now rewrite (proj2 (kcmp_eq k k) eq_refl).
  - destruct (kcmp k x) eqn:E; cbn; unfold keqb.
    + now rewrite (proj2 (kcmp_eq k k) eq_refl).
    + now rewrite (proj2 (kcmp_eq k k) eq_refl).
    + now rewrite E.
Qed.
Lemma replace_col_twice cs c : replace_col (replace_col cs c) c = replace_col cs c.
Proof.
  induction cs as [|x cs IH]; cbn.
  - now rewrite String.eqb_refl.
  - destruct (String.eqb (c_name x) (c_name c)) eqn:E; cbn; [now rewrite String.eqb_refl|]. now rewrite E, IH.
Qed.
Lemma remove_twice (cs : list AColumn) n : filter (fun c => negb (String.eqb (c_name c) n)) (filter (fun c => negb (String.eqb (c_name c) n)) cs)
  = filter (fun c => negb (String.eqb (c_name c) n)) cs.
Proof. rewrite filter_filter. apply filter_ext. intros c. now destruct (negb _). Qed.

Definition semi (s : string) : string := (s ++ ";")%string.
Definition semis (l : list string) : string := join nl (map semi l).

Section Backend.
Variable d : dialect.
Variable kw : string -> bool.
Variable show : f64 -> string.
Variable read : bool -> string -> f64.
Hypothesis show_ok : display_ok read show.
Variable strict : bool.
Variable sep : list tok.
Variable create : ATable -> bool -> outcome string.
Variable copy : ATable -> ATable -> string.
Variable change : ADB -> string -> AColumn -> option AColumn -> outcome (string * ADB).
Notation stmt := (statement d kw sep).
Hypothesis create_ok : forall t b, table_fine t ->
  exists s, create t b = Ok (s ++ ";")%string /\ stmt s (create_ast strict b t) /\ nosemi s = true.
Hypothesis copy_ok : forall old new, identifier (t_name old) = true -> table_fine new ->
  exists s, copy old new = (s ++ ";")%string
    /\ stmt s (CopyTable (t_name new) (map c_name (t_cols new)) (t_name old)) /\ nosemi s = true.
Hypothesis change_eq : forall current tbl old new, change current tbl old new =
  match get_table current tbl with
  | None => Ok (""%string, current)
  | Some old_table =>
      let new_table := changed_table (rename old_table (tmp_table_name (t_name old_table))) old new in
      do create <- create new_table false;
      let stmts := [create; copy old_table new_table; sqlite_drop_table kw (t_name old_table);
                    ("ALTER TABLE " ++ q kw (t_name new_table) ++ " RENAME TO " ++ q kw tbl ++ ";")%string] in
      Ok (join nl stmts, replace_table current (rename new_table (t_name old_table)))
  end.

Definition says (line : string) (xs : list ddl) (plain : Prop) : Prop :=
  exists bodies, line = semis bodies /\ Forall2 stmt bodies xs /\ (plain -> Forall (fun s => nosemi s = true) bodies).
Lemma says_one s x : stmt s x -> forall p : Prop, (p -> nosemi s = true) -> says (s ++ ";") [x] p.
Proof. intros H p N. exists [s]. split; [reflexivity|]. split; [constructor; [exact H|constructor]|]. intros P. constructor; auto. Qed.
Lemma says_none p : says "" [] p.
Proof. exists []. repeat split; constructor. Qed.

Lemma tmp_identifier n : identifier n = true -> identifier (tmp_table_name n) = true.
Proof.
  unfold tmp_table_name. destruct n as [|c n]; [discriminate|]. cbn [append identifier]. rewrite !andb_true_iff, all_chars_app.
  intros [A B]. now rewrite A, B.
Qed.
Lemma tmp_fine n t : identifier n = true -> table_fine t -> table_fine {| t_name := tmp_table_name n; t_cols := t_cols t |}.
Proof. intros H (_ & N & F). split; [now apply tmp_identifier|]. now split. Qed.

Lemma change_says current tbl tb old new : get_table current tbl = Some tb -> t_name tb = tbl -> identifier tbl = true ->
  table_fine (changed_table tb old new) ->
  exists line, change current tbl old new = Ok (line, replace_table current (changed_table tb old new))
    /\ says line (rebuild_ast strict tb (changed_table (rename tb (tmp_table_name tbl)) old new)) True.
Proof.
  intros G N Hi F. rewrite change_eq, G. cbv zeta. rewrite N.
  assert (F' : table_fine (changed_table (rename tb (tmp_table_name tbl)) old new)).
  { replace (changed_table (rename tb (tmp_table_name tbl)) old new)
      with {| t_name := tmp_table_name tbl; t_cols := t_cols (changed_table tb old new) |} by (now destruct new).
    now apply tmp_fine. }
  destruct (create_ok _ false F') as (s1 & E1 & S1 & N1). rewrite E1. cbn [obind].
  destruct (copy_ok tb _ ltac:(now rewrite N) F') as (s2 & E2 & S2 & N2). rewrite E2.
  destruct (drop_statement d kw sep tbl Hi) as (s3 & E3 & S3 & N3). rewrite E3.
  assert (Et : t_name (changed_table (rename tb (tmp_table_name tbl)) old new) = tmp_table_name tbl) by (now destruct new). rewrite Et.
  destruct (rename_statement d kw sep (tmp_table_name tbl) tbl (tmp_identifier _ Hi) Hi) as (s4 & E4 & S4 & N4). rewrite E4.
  eexists. split.
  - f_equal. f_equal. f_equal. destruct tb as [n cs]. cbn in N. subst n. destruct new; reflexivity.
  - exists [s1; s2; s3; s4]. split; [reflexivity|]. split; [|intros _; repeat (apply Forall_cons; [assumption|]); apply Forall_nil].
    unfold rebuild_ast. rewrite Et, N. rewrite Et, N in S2. repeat (apply Forall2_cons; [assumption|]); apply Forall2_nil.
Qed.

Lemma op_says current op : op_fine current op ->
  exists line cur', sql_for_op kw show create change current op = Ok (line, cur')
    /\ transform_with cur' op = transform_with current op
    /\ says line (op_ast show strict current op) (default_plain op).
Proof.
  intros H. destruct op as [t|t|t|n|t c|t n|t o c|t]; cbn [op_fine] in H; cbn [sql_for_op op_ast].
  - destruct (create_ok t false H) as (s & E & S & N). rewrite E. cbn [obind]. do 2 eexists. split; [reflexivity|]. split; [reflexivity|].
    now apply says_one.
  - destruct (create_ok t true H) as (s & E & S & N). rewrite E. cbn [obind]. do 2 eexists. split; [reflexivity|]. split; [reflexivity|].
    now apply says_one.
  - do 2 eexists. split; [reflexivity|]. split; [reflexivity|]. apply says_none.
  - destruct (drop_statement d kw sep n H) as (s & E & S & N). rewrite E. do 2 eexists. split; [reflexivity|]. split; [reflexivity|].
    now apply says_one.
  - destruct H as (Ht & Hc & v & Ev & R). rewrite Ev. destruct (addcol_statement d kw show read show_ok sep t c v Ht Hc Ev R) as (s & E & S & N).
    rewrite E. cbn [obind]. do 2 eexists. split; [reflexivity|]. split; [reflexivity|]. apply says_one; [assumption|].
    cbn [default_plain]. intros P. apply N. intros w ->. exact (P w Ev).
  - destruct H as (Ht & Hn & tb & G & Nt & I & F). unfold remove_column_sql. rewrite G.
    destruct (col_by_name (t_cols tb) n) as [c|] eqn:C.
    2: { exfalso. apply in_map_iff in I as (c & En & I). apply (find_none _ _ C c) in I. rewrite En, String.eqb_refl in I. discriminate. }
    apply find_some in C as [_ C%String.eqb_eq].
    destruct (c_ref c) as [r|] eqn:R.
    + destruct (change_says current t tb c None G Nt Ht) as (line & E & S); [cbn [changed_table]; now rewrite C|].
      rewrite E. do 2 eexists. split; [reflexivity|]. split.
      * cbn [transform_with]. unfold update_table. rewrite G. unfold get_table, replace_table. cbn [changed_table remove_column t_name a_tables a_types].
        rewrite Nt, C. rewrite mget_mput_eq. unfold remove_column. cbn [t_name t_cols]. rewrite remove_twice, mput_mput. reflexivity.
      * destruct S as (b & E1 & E2 & E3). exists b. cbn [changed_table] in E2. rewrite C in E2. repeat split; auto.
    + destruct (dropcol_statement d kw sep t n Ht Hn) as (s & E & S & N). rewrite E. do 2 eexists. split; [reflexivity|]. split; [reflexivity|].
      now apply says_one.
  - destruct H as (tb & G & Nt & F).
    assert (Ht : identifier t = true) by (destruct F as (F & _); cbn in F; now rewrite Nt in F).
    destruct (change_says current t tb o (Some c) G Nt Ht F) as (line & E & S). rewrite E. do 2 eexists. split; [reflexivity|]. split.
    + cbn [transform_with]. unfold update_table. rewrite G. unfold get_table, replace_table. cbn [changed_table replace_column t_name a_tables a_types].
      rewrite Nt, mget_mput_eq. unfold replace_column. cbn [t_name t_cols]. rewrite replace_col_twice, mput_mput. reflexivity.
    + rewrite G. destruct S as (b & E1 & E2 & E3). exists b. repeat split; auto.
  - do 2 eexists. split; [reflexivity|]. split; [reflexivity|]. apply says_none.
Qed.

Lemma ops_says ops : forall current, ops_fine current ops ->
  exists lines, lines_for_ops (sql_for_op kw show create change) current ops = Ok (map semis lines)
    /\ Forall2 stmt (concat lines) (ops_ast show strict current ops)
    /\ (Forall default_plain ops -> Forall (fun s => nosemi s = true) (concat lines)).
Proof.
  induction ops as [|o ops IH]; intros current H.
  - exists []. repeat split; constructor.
  - destruct H as [Ho H]. destruct (op_says current o Ho) as (line & cur' & E & T & b & -> & S & N).
    destruct (IH _ H) as (l & El & Sl & Nl). exists (b :: l). cbn [lines_for_ops]. rewrite E. cbn [obind fst snd]. rewrite T, El. cbn [obind map concat ops_ast].
    split; [reflexivity|]. split; [now apply Forall2_app|]. intros P. inversion P; subst. apply Forall_app. auto.
Qed.

Lemma join_app s a b : a <> [] -> b <> [] -> join s (a ++ b) = (join s a ++ s ++ join s b)%string.
Proof.
  intros Na Nb. induction a as [|x a IH]; [congruence|]. destruct a as [|y a].
  - destruct b; [congruence|]. reflexivity.
  - change (join s ((x :: y :: a) ++ b)) with (x ++ s ++ join s ((y :: a) ++ b))%string. rewrite IH by congruence.
    change (join s (x :: y :: a)) with (x ++ s ++ join s (y :: a))%string. now rewrite <- !str_app_assoc.
Qed.
Lemma semis_empty l : semis l = ""%string <-> l = [].
Proof.
  split; [|now intros ->]. destruct l as [|x l]; [auto|]. unfold semis. cbn [map]. intros E. exfalso.
  destruct l; cbn in E; destruct x; discriminate.
Qed.
Lemma script_semis lines : script_of_lines (map semis lines) = (semis (concat lines) ++ nl)%string.
Proof.
  unfold script_of_lines. f_equal. induction lines as [|l lines IH]; [reflexivity|]. cbn [map filter concat].
  destruct l as [|x l]; [exact IH|].
  destruct (String.eqb_spec (semis (x :: l)) "") as [E|_]; [now apply semis_empty in E|]. cbn [negb].
  destruct (concat lines) as [|y ys] eqn:C.
  - rewrite app_nil_r. replace (filter (fun s => negb (String.eqb s "")) (map semis lines)) with (@nil string); [reflexivity|].
    symmetry. apply filter_false. intros s [z [<- I]]%in_map_iff. assert (z = []) as ->; [|reflexivity].
    destruct z as [|w z]; [reflexivity|]. exfalso. apply in_split in I as (l1 & l2 & ->). rewrite concat_app in C. cbn in C.
    destruct (concat l1); discriminate.
  - assert (Z : semis ((x :: l) ++ y :: ys) = (semis (x :: l) ++ nl ++ semis (y :: ys))%string).
    { unfold semis. rewrite map_app. apply join_app; cbn; congruence. }
    rewrite Z. clear Z.
    rewrite <- IH. destruct (filter _ _) as [|w ws] eqn:Ef; [|reflexivity].
    exfalso. change (join nl []) with ""%string in IH. symmetry in IH. apply semis_empty in IH. discriminate.
Qed.

Lemma semis_lex bodies xs : Forall2 stmt bodies xs -> reads (semis bodies ++ nl) (script_toks kw sep xs).
Proof.
  intros H. induction H as [|b x bodies xs (L & _) H IH].
  - intros r. reflexivity.
  - assert (X : reads (semi b) (ddl_toks kw sep x ++ [TSemi])).
    { unfold semi. apply reads_close; [exact L|reflexivity|intros r; reflexivity]. }
    cbn [script_toks flat_map]. destruct bodies as [|b' bodies].
    + inversion H; subst. cbn [flat_map]. apply reads_app; [exact X|intros r; reflexivity].
    + change (semis (b :: b' :: bodies)) with (semi b ++ nl ++ semis (b' :: bodies))%string. rewrite <- !str_app_assoc.
      apply reads_app; [exact X|]. apply (reads_app nl []); [intros r; reflexivity|exact IH].
Qed.

Variable Hq : quotes_enough kw d.
Variable Hd : quotes_ddl kw ddl_words.
Hypothesis Hsep : sep_ok sep.

Theorem script_parses current ops : ops_fine current ops ->
  exists lines, lines_for_ops (sql_for_op kw show create change) current ops = Ok lines
    /\ parse_script d (fun s => s) (script_of_lines lines) = Some (ops_ast show strict current ops).
Proof.
  intros H. destruct (ops_says ops current H) as (l & E & S & _). exists (map semis l). split; [exact E|].
  rewrite script_semis. rewrite (parse_script_toks kw d (fun s => s) Hq Hd sep (ops_ast show strict current ops)); [|assumption| |].
  - f_equal. rewrite (map_ext _ _ (respell_id kw)). apply map_id.
  - clear - S. induction S as [|b x bs xs (_ & _ & _ & O) S IH]; constructor; assumption.
  - unfold lex. pose proof (semis_lex _ _ S ""%string) as R. rewrite str_app_nil_r in R. rewrite R. cbn. now rewrite app_nil_r.
Qed.

(** Splitting at the semicolons. *)
Lemma split_nosemi a r : nosemi a = true -> split_semi (a ++ String ";" r) = a :: split_semi r.
Proof.
  induction a as [|c a IH]; [reflexivity|]. cbn [nosemi all_chars]. intros [Hc H]%andb_true_iff. cbn [append split_semi].
  destruct (Ascii.eqb c ";"); [discriminate|]. now rewrite IH.
Qed.
Lemma split_whole a : nosemi a = true -> split_semi a = [a].
Proof.
  induction a as [|c a IH]; [reflexivity|]. cbn [nosemi all_chars]. intros [Hc H]%andb_true_iff. cbn [split_semi].
  destruct (Ascii.eqb c ";"); [discriminate|]. now rewrite IH.
Qed.
Lemma trim_body b x pre : stmt b x -> all_chars is_ws pre = true -> trim (pre ++ b) = b /\ b <> ""%string.
Proof.
  intros (_ & [E N] & B & _) W. split; [|exact N]. unfold trim. assert (X : trim_start (pre ++ b) = b); [|now rewrite X].
  induction pre as [|c pre IH].
  - cbn. destruct b as [|c b]; [contradiction|]. cbn. now destruct (is_ws c).
  - cbn in W. apply andb_true_iff in W as [Wc W]. cbn [append trim_start]. rewrite Wc. auto.
Qed.
Lemma split_semis bodies xs : Forall2 stmt bodies xs -> Forall (fun s => nosemi s = true) bodies ->
  forall pre, all_chars is_ws pre = true -> turso_statements (pre ++ semis bodies ++ nl) = bodies.
Proof.
  unfold turso_statements. intros H N. induction H as [|b x bodies xs S H IH]; intros pre W.
  - cbn [semis map join append]. assert (X : all_chars is_ws (pre ++ nl) = true) by (rewrite all_chars_app, W; reflexivity).
    rewrite split_whole. 2: { apply (all_chars_weaken is_ws); [|exact X]. intros c Hc. now destruct c as [[] [] [] [] [] [] [] []]. }
    cbn [map filter]. assert (T : trim (pre ++ nl) = ""%string); [|now rewrite T]. unfold trim.
    assert (T : trim_start (pre ++ nl) = ""%string); [|now rewrite T].
    clear - X. induction (pre ++ nl)%string as [|c s IH]; [reflexivity|]. cbn in X. apply andb_true_iff in X as [Xc X]. cbn [trim_start].
    rewrite Xc. auto.
  - inversion N as [|? ? Nb N']; subst. destruct (trim_body b x pre S W) as [T Ne].
    assert (X : forall r, filter (fun s => negb (String.eqb s "")) (map trim (split_semi (pre ++ semi b ++ r)))
                = b :: filter (fun s => negb (String.eqb s "")) (map trim (split_semi r))).
    { intros r. unfold semi. rewrite <- str_app_assoc. cbn [append]. rewrite str_app_assoc, split_nosemi.
      2: { rewrite nosemi_app, Nb, andb_true_r. apply (all_chars_weaken is_ws); [|exact W]. intros c Hc. now destruct c as [[] [] [] [] [] [] [] []]. }
      cbn [map filter]. rewrite T. destruct (String.eqb_spec b ""); [contradiction|]. reflexivity. }
    destruct bodies as [|b' bodies].
    + change (semis [b]) with (semi b). rewrite X. reflexivity.
    + change (semis (b :: b' :: bodies)) with (semi b ++ nl ++ semis (b' :: bodies))%string. rewrite <- !str_app_assoc, X.
      rewrite (IH N' nl eq_refl). reflexivity.
Qed.
Theorem script_splits current ops : ops_fine current ops -> Forall default_plain ops ->
  exists lines, lines_for_ops (sql_for_op kw show create change) current ops = Ok lines
    /\ Forall2 (fun text x => parse_ddl d (fun s => s) text = Some x /\ parse_ddl d (fun s => s) (text ++ ";") = Some x)
               (turso_statements (script_of_lines lines)) (ops_ast show strict current ops).
Proof.
  intros H P. destruct (ops_says ops current H) as (l & E & S & N). exists (map semis l). split; [exact E|].
  rewrite script_semis. pose proof (split_semis _ _ S (N P) ""%string eq_refl) as Sp. cbn [append] in Sp. rewrite Sp.
  clear - S Hsep Hq Hd. induction S as [|b x bs xs (L & _ & _ & O) S IH]; constructor; [|exact IH].
  split.
  - rewrite <- (respell_id kw x). apply (parse_ddl_bare kw d (fun s => s) Hq Hd sep); [assumption|assumption|].
    unfold lex. pose proof (L ""%string I) as L0. rewrite str_app_nil_r in L0. rewrite L0. cbn [lex_from lflush]. apply app_nil_r.
  - rewrite <- (respell_id kw x). apply (parse_ddl_semi kw d (fun s => s) Hq Hd sep); [assumption|assumption|].
    unfold lex. pose proof (L ";"%string eq_refl) as L0. exact L0.
Qed.
End Backend.
