(** Reading back statements that define tables: tokens and grammar. *)
From Verif Require Import Base SqlVal Sql Query QuerySpec LexProofs TokProofs Ddl.

(** * From text to tokens *)

(** The text is read as these tokens, whatever follows. *)
Definition reads (s : string) (ts : list tok) : Prop :=
  forall r, lex_from LStart (s ++ r) = ts ++ lex_from LStart r.
(** The same, when what follows does not continue a word. *)
Definition lexes (s : string) (ts : list tok) : Prop :=
  forall r, delim r -> lex_from LStart (s ++ r) = ts ++ lex_from LStart r.
Definition begins_delim (s : string) : Prop :=
  match s with "" => False | String c _ => delim_char c = true end.

Lemma reads_lexes s ts : reads s ts -> lexes s ts.
Proof. intros H r _. apply H. Qed.
Lemma begins_delim_app s r : begins_delim s -> delim (s ++ r).
Proof. destruct s; [contradiction|auto]. Qed.
Lemma reads_app s ts u us : reads s ts -> reads u us -> reads (s ++ u) (ts ++ us).
Proof. intros H K r. rewrite <- str_app_assoc, H, K. now rewrite app_assoc. Qed.
Lemma lexes_after s ts u us : reads s ts -> lexes u us -> lexes (s ++ u) (ts ++ us).
Proof. intros H K r D. rewrite <- str_app_assoc, H, K by assumption. now rewrite app_assoc. Qed.
Lemma lexes_app s ts u us : lexes s ts -> begins_delim u -> lexes u us -> lexes (s ++ u) (ts ++ us).
Proof.
  intros H B K r D. rewrite <- str_app_assoc, H by (now apply begins_delim_app). rewrite K by assumption. now rewrite app_assoc.
Qed.
Lemma reads_close s ts u us : lexes s ts -> begins_delim u -> reads u us -> reads (s ++ u) (ts ++ us).
Proof.
  intros H B K r. rewrite <- str_app_assoc, H by (now apply begins_delim_app). rewrite K. now rewrite app_assoc.
Qed.
Lemma lexes_word w : identifier w = true -> lexes w [TWord w].
Proof. intros H r D. now apply lex_ident. Qed.
Lemma lexes_fixed s pre a : (forall r, lex_from LStart (s ++ r) = pre ++ lex_from (LWord a) r) -> lexes s (pre ++ [TWord a]).
Proof.
  intros H r D. rewrite H, <- app_assoc. f_equal. pose proof (lex_word_from a "" r eq_refl D) as X.
  cbn [append] in X. now rewrite str_app_nil_r in X.
Qed.
Lemma reads_nil : reads "" [].
Proof. intros r. reflexivity. Qed.

Fixpoint seps (sep : list tok) (l : list (list tok)) : list tok :=
  match l with
  | [] => []
  | [x] => x
  | x :: r => x ++ sep ++ seps sep r
  end.
Lemma lexes_join sep st l ts : begins_delim sep -> reads sep st -> Forall2 lexes l ts -> l <> [] ->
  lexes (join sep l) (seps st ts).
Proof.
  intros B R H. induction H as [|x t l ts Hx Hl IH]; [congruence|]. intros _.
  destruct Hl as [|y u l ts Hy Hl]; [exact Hx|].
  change (join sep (x :: y :: l)) with (x ++ sep ++ join sep (y :: l))%string.
  change (seps st (t :: u :: ts)) with (t ++ st ++ seps st (u :: ts)).
  apply lexes_app; [assumption| |apply lexes_after; [assumption|apply IH; congruence]].
  destruct sep; [contradiction|exact B].
Qed.

(** * From tokens to statements *)

Definition lit_toks (l : literal) : list tok :=
  match l with
  | LitWord w => [TWord w]
  | LitNum true n => [TMinus; TNumber n]
  | LitNum false n => [TNumber n]
  | LitStr s => [TStr s]
  | LitHex h => [TWord "x"; TStr h]
  end.
Definition cons_toks (k : colcons) : list tok :=
  match k with
  | KNotNull => [TWord "NOT"; TWord "NULL"]
  | KPrimary false => [TWord "PRIMARY"; TWord "KEY"]
  | KPrimary true => [TWord "PRIMARY"; TWord "KEY"; TWord "AUTOINCREMENT"]
  | KUnique => [TWord "UNIQUE"]
  | KDefault l => TWord "DEFAULT" :: lit_toks l
  end.

Section Grammar.
Variable kw : string -> bool.
Variable d : dialect.
Variable fold : string -> string.
Notation qt := (qtok kw).
(** Every word the engine gives a meaning to where a name stands is quoted. *)
Hypothesis Hq : quotes_enough kw d.
Hypothesis Hd : forall w, kmem (upper w) ddl_words = true -> kw w = true.

(** The catalogue's spelling of a name that was written by butane. *)
Definition spelled (w : string) : string := if kw w then w else fold w.

Lemma p_dname_q w r : p_dname d fold (qt w :: r) = Some (spelled w, r).
Proof.
  unfold qtok, spelled. destruct (kw w) eqn:K; cbn [p_dname]; [reflexivity|].
  destruct (reserved d w) eqn:R; [rewrite (Hq w R) in K; discriminate|].
  destruct (kmem (upper w) ddl_words) eqn:W; [rewrite (Hd w W) in K; discriminate|]. reflexivity.
Qed.

Definition coldef_toks (c : coldef) : list tok :=
  qt (cd_name c) :: map TWord (cd_type c) ++ flat_map cons_toks (cd_cons c).
Definition fk_toks (f : fkdef) : list tok :=
  [TLP; qt (fk_col f); TRP; TWord "REFERENCES"; qt (fk_table f); TLP; qt (fk_ref f); TRP].
Definition tfk_toks (f : fkdef) : list tok := TWord "FOREIGN" :: TWord "KEY" :: fk_toks f.
(** [sep] stands between table constraints. *)
Definition items_toks (sep : list tok) (cs : list coldef) (fs : list fkdef) : list tok :=
  seps [TComma] (map coldef_toks cs)
  ++ match fs with [] => [] | _ => TComma :: seps sep (map tfk_toks fs) end.
Definition ddl_toks (sep : list tok) (x : ddl) : list tok :=
  match x with
  | CreateTable b t cs fs strict =>
      TWord "CREATE" :: TWord "TABLE" :: (if b then [TWord "IF"; TWord "NOT"; TWord "EXISTS"] else [])
      ++ qt t :: TLP :: items_toks sep cs fs ++ TRP :: (if strict then [TWord "STRICT"] else [])
  | DropTable t => [TWord "DROP"; TWord "TABLE"; qt t]
  | CopyTable t cs u =>
      TWord "INSERT" :: TWord "INTO" :: qt t :: TWord "SELECT" :: seps [TComma] (map (fun c => [qt c]) cs)
      ++ [TWord "FROM"; qt u]
  | AddCol t c => TWord "ALTER" :: TWord "TABLE" :: qt t :: TWord "ADD" :: TWord "COLUMN" :: coldef_toks c
  | DropCol t c => [TWord "ALTER"; TWord "TABLE"; qt t; TWord "DROP"; TWord "COLUMN"; qt c]
  | RenameTable t u => [TWord "ALTER"; TWord "TABLE"; qt t; TWord "RENAME"; TWord "TO"; qt u]
  | RenameCol t c u => [TWord "ALTER"; TWord "TABLE"; qt t; TWord "RENAME"; TWord "COLUMN"; qt c; TWord "TO"; qt u]
  | AddForeignKey t f => TWord "ALTER" :: TWord "TABLE" :: qt t :: TWord "ADD" :: TWord "FOREIGN" :: TWord "KEY" :: fk_toks f
  | AddPrimaryKey t c => [TWord "ALTER"; TWord "TABLE"; qt t; TWord "ADD"; TWord "PRIMARY"; TWord "KEY"; TLP; qt c; TRP]
  | AddUnique t c => [TWord "ALTER"; TWord "TABLE"; qt t; TWord "ADD"; TWord "UNIQUE"; TLP; qt c; TRP]
  | DropConstraint b t n =>
      [TWord "ALTER"; TWord "TABLE"; qt t; TWord "DROP"; TWord "CONSTRAINT"]
      ++ (if b then [TWord "IF"; TWord "EXISTS"] else []) ++ [TWord n]
  | SetType t c ty => [TWord "ALTER"; TWord "TABLE"; qt t; TWord "ALTER"; TWord "COLUMN"; qt c;
                       TWord "SET"; TWord "DATA"; TWord "TYPE"] ++ map TWord ty
  | SetNotNull t c b => [TWord "ALTER"; TWord "TABLE"; qt t; TWord "ALTER"; TWord "COLUMN"; qt c;
                         TWord (if b then "SET" else "DROP"); TWord "NOT"; TWord "NULL"]
  | SetDefault t c (Some l) => [TWord "ALTER"; TWord "TABLE"; qt t; TWord "ALTER"; TWord "COLUMN"; qt c;
                                TWord "SET"; TWord "DEFAULT"] ++ lit_toks l
  | SetDefault t c None => [TWord "ALTER"; TWord "TABLE"; qt t; TWord "ALTER"; TWord "COLUMN"; qt c;
                            TWord "DROP"; TWord "DEFAULT"]
  end.

Definition respell_col (c : coldef) : coldef :=
  {| cd_name := spelled (cd_name c); cd_type := cd_type c; cd_cons := cd_cons c |}.
Definition respell_fk (f : fkdef) : fkdef :=
  {| fk_col := spelled (fk_col f); fk_table := spelled (fk_table f); fk_ref := spelled (fk_ref f) |}.
Definition respell (x : ddl) : ddl :=
  match x with
  | CreateTable b t cs fs s => CreateTable b (spelled t) (map respell_col cs) (map respell_fk fs) s
  | DropTable t => DropTable (spelled t)
  | CopyTable t cs u => CopyTable (spelled t) (map spelled cs) (spelled u)
  | AddCol t c => AddCol (spelled t) (respell_col c)
  | DropCol t c => DropCol (spelled t) (spelled c)
  | RenameTable t u => RenameTable (spelled t) (spelled u)
  | RenameCol t c u => RenameCol (spelled t) (spelled c) (spelled u)
  | AddForeignKey t f => AddForeignKey (spelled t) (respell_fk f)
  | AddPrimaryKey t c => AddPrimaryKey (spelled t) (spelled c)
  | AddUnique t c => AddUnique (spelled t) (spelled c)
  | DropConstraint b t n => DropConstraint b (spelled t) (fold n)
  | SetType t c ty => SetType (spelled t) (spelled c) ty
  | SetNotNull t c b => SetNotNull (spelled t) (spelled c) b
  | SetDefault t c l => SetDefault (spelled t) (spelled c) l
  end.

(** Words that can be the words of a type. *)
Definition type_word (w : string) : Prop := kmem (upper w) cons_words = false.
Definition lit_ok (l : literal) : Prop := True.
Definition col_ok (c : coldef) : Prop := Forall type_word (cd_type c).
Definition ddl_ok (x : ddl) : Prop :=
  match x with
  | CreateTable _ _ cs _ _ => cs <> [] /\ Forall col_ok cs
  | CopyTable _ cs _ => cs <> []
  | AddCol _ c => col_ok c
  | SetType _ _ ty => Forall type_word ty
  | DropConstraint _ _ n => reserved d n = false /\ kmem (upper n) ddl_words = false
  | _ => True
  end.

Lemma eat_word k w r : eat k (TWord w :: r) = if String.eqb (upper w) k then Some r else None.
Proof. reflexivity. Qed.
Ltac eatw :=
  repeat (rewrite eat_word; match goal with |- context [String.eqb (upper ?w) ?k] =>
    let b := eval vm_compute in (String.eqb (upper w) k) in match b with true => idtac | false => idtac end; change (String.eqb (upper w) k) with b end; cbv iota).
(** What may follow a column definition, a constraint or a literal. *)
Definition ends (ts : list tok) : Prop :=
  match ts with TRP :: _ | TComma :: _ | TSemi :: _ | [] => True | _ => False end.

Lemma p_type_toks ty ts : Forall type_word ty ->
  (match ts with TWord w :: _ => kmem (upper w) cons_words = true | _ => True end) ->
  p_type (map TWord ty ++ ts) = (ty, ts).
Proof.
  intros H Ht. induction H as [|w ty Hw H IH]; cbn [map List.app].
  - destruct ts as [|[] ts]; try reflexivity. cbn [p_type]. now rewrite Ht.
  - cbn [p_type]. unfold type_word in Hw. now rewrite Hw, IH.
Qed.
Lemma ends_not_word ts : ends ts -> match ts with TWord w :: _ => kmem (upper w) cons_words = true | _ => True end.
Proof. destruct ts as [|[] ts]; cbn; auto; contradiction. Qed.
Lemma cons_toks_word ks ts : ends ts ->
  match flat_map cons_toks ks ++ ts with TWord w :: _ => kmem (upper w) cons_words = true | _ => True end.
Proof.
  intros E. destruct ks as [|k ks]; [now apply ends_not_word|]. destruct k as [|[]| |l]; reflexivity.
Qed.
(** What may follow a literal in a list of constraints. *)
Definition not_str (ts : list tok) : Prop := match ts with TStr _ :: _ => False | _ => True end.
Lemma p_literal_toks l ts : not_str ts -> p_literal (lit_toks l ++ ts) = Some (l, ts).
Proof.
  destruct l as [w|[] n|s|h]; cbn; intros H; try reflexivity.
  destruct ts as [|[] ts]; try reflexivity. contradiction.
Qed.
Lemma cons_not_str ks ts : ends ts -> not_str (flat_map cons_toks ks ++ ts).
Proof.
  intros E. destruct ks as [|[|[]| |l] ks]; try exact I. cbn. destruct ts as [|[] ts]; try exact I; contradiction.
Qed.
Lemma cons_not_auto ks ts : ends ts -> eat "AUTOINCREMENT" (flat_map cons_toks ks ++ ts) = None.
Proof.
  intros E. destruct ks as [|[|[]| |l] ks]; try reflexivity. cbn. destruct ts as [|[] ts]; try reflexivity; contradiction.
Qed.
Lemma p_cons_S f ts : p_cons (S f) ts =
    match eats ["NOT"; "NULL"] ts with
    | Some r => match p_cons f r with Some (l, r') => Some (KNotNull :: l, r') | None => None end
    | None =>
    match eats ["PRIMARY"; "KEY"; "AUTOINCREMENT"] ts with
    | Some r => match p_cons f r with Some (l, r') => Some (KPrimary true :: l, r') | None => None end
    | None =>
    match eats ["PRIMARY"; "KEY"] ts with
    | Some r => match p_cons f r with Some (l, r') => Some (KPrimary false :: l, r') | None => None end
    | None =>
    match eat "UNIQUE" ts with
    | Some r => match p_cons f r with Some (l, r') => Some (KUnique :: l, r') | None => None end
    | None =>
    match eat "DEFAULT" ts with
    | Some r => match p_literal r with
                | Some (x, r1) => match p_cons f r1 with
                                  | Some (l, r') => Some (KDefault x :: l, r')
                                  | None => None
                                  end
                | None => None
                end
    | None => Some ([], ts)
    end end end end end.
Proof. reflexivity. Qed.
Lemma p_cons_toks ks : forall fuel ts, ends ts -> List.length ks <= fuel ->
  p_cons fuel (flat_map cons_toks ks ++ ts) = Some (ks, ts).
Proof.
  induction ks as [|k ks IH]; intros fuel ts E L.
  - cbn. destruct fuel; [reflexivity|]. destruct ts as [|[] ts]; try reflexivity; contradiction.
  - cbn in L. destruct fuel as [|fuel]; [lia|]. cbn [flat_map]. rewrite <- app_assoc. specialize (IH fuel ts E ltac:(lia)).
    rewrite p_cons_S. cbn [eats]. destruct k as [|[]| |l]; cbn [cons_toks List.app]; eatw.
    + now rewrite IH.
    + now rewrite IH.
    + rewrite (cons_not_auto ks ts E), IH. reflexivity.
    + now rewrite IH.
    + rewrite p_literal_toks by (now apply cons_not_str). now rewrite IH.
Qed.
Lemma cons_length ks ts : List.length ks <= List.length (flat_map cons_toks ks ++ ts).
Proof.
  rewrite app_length. enough (List.length ks <= List.length (flat_map cons_toks ks)) by lia.
  induction ks as [|k ks IH]; [auto|]. cbn [flat_map]. rewrite app_length. destruct k as [|[]| |l]; cbn; lia.
Qed.
Lemma p_coldef_toks c ts : col_ok c -> ends ts -> p_coldef d fold (coldef_toks c ++ ts) = Some (respell_col c, ts).
Proof.
  intros H E. unfold p_coldef, coldef_toks. cbn [List.app]. rewrite p_dname_q, <- app_assoc.
  rewrite p_type_toks by (exact H || now apply cons_toks_word). rewrite p_cons_toks; auto using cons_length.
Qed.
Lemma p_in_paren_q w r : p_in_paren d fold (TLP :: qt w :: TRP :: r) = Some (spelled w, r).
Proof. unfold p_in_paren. now rewrite p_dname_q. Qed.
Lemma p_fk_toks f ts : p_fk d fold (fk_toks f ++ ts) = Some (respell_fk f, ts).
Proof.
  unfold p_fk, fk_toks. cbn [List.app]. rewrite p_in_paren_q. change (eat "REFERENCES" (TWord "REFERENCES" :: ?x)) with (Some x).
  cbv iota. rewrite p_dname_q, p_in_paren_q. reflexivity.
Qed.
(** Table constraints stand with commas between them, or nothing. *)
Definition sep_ok (sep : list tok) : Prop := sep = [] \/ sep = [TComma].
Lemma p_fks_toks sep fs : sep_ok sep -> forall fuel ts, fs <> [] -> List.length fs <= fuel ->
  p_fks d fold fuel (seps sep (map tfk_toks fs) ++ TRP :: ts) = Some (map respell_fk fs, ts).
Proof.
  intros S. induction fs as [|f fs IH]; [congruence|]. intros fuel ts _ L. cbn in L. destruct fuel as [|fuel]; [lia|].
  destruct fs as [|g fs].
  - cbn [map seps]. unfold tfk_toks. cbn [List.app p_fks].
    change (eats ["FOREIGN"; "KEY"] (TWord "FOREIGN" :: TWord "KEY" :: ?x)) with (Some x). cbv iota. now rewrite p_fk_toks.
  - specialize (IH fuel ts ltac:(congruence) ltac:(cbn in *; lia)).
    change (seps sep (map tfk_toks (f :: g :: fs))) with (tfk_toks f ++ sep ++ seps sep (map tfk_toks (g :: fs))).
    rewrite <- !app_assoc. unfold tfk_toks at 1. cbn [List.app p_fks].
    change (eats ["FOREIGN"; "KEY"] (TWord "FOREIGN" :: TWord "KEY" :: ?x)) with (Some x). cbv iota. rewrite p_fk_toks.
    destruct S as [-> | ->].
    + cbn [List.app]. assert (X : exists r, seps [] (map tfk_toks (g :: fs)) ++ TRP :: ts = TWord "FOREIGN" :: r).
      { destruct fs; eexists; reflexivity. }
      destruct X as [r X]. rewrite X in IH |- *. now rewrite IH.
    + cbn [List.app]. now rewrite IH.
Qed.
Lemma seps_nonempty (sep : list tok) x l : exists r, seps sep (x :: l) = x ++ r.
Proof. destruct l; cbn; [exists []; now rewrite app_nil_r|eauto]. Qed.
Lemma qtok_not_foreign w r : eat "FOREIGN" (qt w :: r) = None.
Proof.
  unfold qtok. destruct (kw w) eqn:K; [reflexivity|]. cbn. destruct (String.eqb_spec (upper w) "FOREIGN") as [E|]; [|reflexivity].
  rewrite (Hd w) in K; [discriminate|]. now rewrite E.
Qed.
Lemma p_items_toks sep cs fs : sep_ok sep -> Forall col_ok cs -> cs <> [] -> forall fuel ts, List.length cs + List.length fs <= fuel ->
  p_items d fold fuel (items_toks sep cs fs ++ TRP :: ts) = Some (map respell_col cs, map respell_fk fs, ts).
Proof.
  intros S H. induction H as [|c cs Hc H IH]; [congruence|]. intros _ fuel ts L. cbn in L. destruct fuel as [|fuel]; [lia|].
  destruct cs as [|c' cs].
  - unfold items_toks. cbn [map seps]. rewrite <- app_assoc. destruct fs as [|f fs].
    + cbn [List.app p_items]. rewrite p_coldef_toks; [|assumption|exact I]. reflexivity.
    + cbn [List.app p_items]. rewrite p_coldef_toks; [|assumption|exact I].
      assert (X : exists r, seps sep (map tfk_toks (f :: fs)) ++ TRP :: ts = TWord "FOREIGN" :: r).
      { destruct (seps_nonempty sep (tfk_toks f) (map tfk_toks fs)) as [r X]. cbn [map]. rewrite X. eexists. reflexivity. }
      pose proof (p_fks_toks sep (f :: fs) S fuel ts ltac:(congruence) ltac:(cbn in *; lia)) as Y.
      destruct X as [r X]. rewrite X in Y |- *. eatw. rewrite Y. reflexivity.
  - specialize (IH ltac:(congruence) fuel ts ltac:(cbn in *; lia)).
    change (items_toks sep (c :: c' :: cs) fs) with ((coldef_toks c ++ TComma :: seps [TComma] (map coldef_toks (c' :: cs)))
      ++ match fs with [] => [] | _ => TComma :: seps sep (map tfk_toks fs) end).
    rewrite <- !app_assoc. cbn [List.app p_items]. rewrite p_coldef_toks; [|assumption|exact I].
    unfold items_toks in IH. rewrite <- app_assoc in IH. rewrite IH.
    destruct (seps_nonempty [TComma] (coldef_toks c') (map coldef_toks cs)) as [r X]. cbn [map]. rewrite X.
    unfold coldef_toks at 1. cbn [List.app]. rewrite qtok_not_foreign. reflexivity.
Qed.
Lemma p_names_toks cs : cs <> [] -> forall fuel ts, List.length cs <= fuel -> match ts with TComma :: _ => False | _ => True end ->
  p_names d fold fuel (seps [TComma] (map (fun c => [qt c]) cs) ++ ts) = Some (map spelled cs, ts).
Proof.
  induction cs as [|c cs IH]; [congruence|]. intros _ fuel ts L Ht. cbn in L. destruct fuel as [|fuel]; [lia|].
  destruct cs as [|c' cs].
  - cbn [map seps List.app p_names]. rewrite p_dname_q. destruct ts as [|[] ts]; try reflexivity. contradiction.
  - change (seps [TComma] (map (fun c => [qt c]) (c :: c' :: cs))) with ([qt c] ++ TComma :: seps [TComma] (map (fun c => [qt c]) (c' :: cs))).
    rewrite <- app_assoc. cbn [List.app p_names]. rewrite p_dname_q, IH; [reflexivity|congruence|cbn in *; lia|assumption].
Qed.
Lemma seps_length (sep : list tok) (l : list (list tok)) : Forall (fun x => 1 <= List.length x) l -> List.length l <= List.length (seps sep l).
Proof.
  induction 1 as [|x l Hx Hl IH]; [auto|]. destruct l as [|y l]; [cbn; lia|].
  change (seps sep (x :: y :: l)) with (x ++ sep ++ seps sep (y :: l)). rewrite !app_length. cbn in *. lia.
Qed.
Lemma items_length sep cs fs : List.length cs + List.length fs <= List.length (items_toks sep cs fs).
Proof.
  unfold items_toks. rewrite app_length. apply Nat.add_le_mono.
  - rewrite <- (map_length coldef_toks cs) at 1. apply seps_length. apply Forall_forall. intros x [c [<- _]]%in_map_iff. cbn. lia.
  - destruct fs as [|f fs]; [auto|]. rewrite <- (map_length tfk_toks). cbn [List.length]. apply le_S, seps_length, Forall_forall.
    intros x [c [<- _]]%in_map_iff. cbn. lia.
Qed.

Lemma eats_nil ts : eats [] ts = Some ts.
Proof. reflexivity. Qed.
Lemma eats_cons k ks ts : eats (k :: ks) ts = match eat k ts with Some r => eats ks r | None => None end.
Proof. reflexivity. Qed.
Lemma eat_q k w r : kmem k ddl_words = true -> eat k (qt w :: r) = None.
Proof.
  intros M. unfold qtok. destruct (kw w) eqn:K; [reflexivity|]. rewrite eat_word. destruct (String.eqb_spec (upper w) k) as [E|]; [|reflexivity].
  rewrite (Hd w) in K; [discriminate|]. now rewrite E.
Qed.
Ltac step := repeat (first [rewrite eats_cons | rewrite eats_nil | rewrite eat_word;
    match goal with |- context [String.eqb (upper ?w) ?k] =>
    let b := eval vm_compute in (String.eqb (upper w) k) in match b with true => idtac | false => idtac end; change (String.eqb (upper w) k) with b end]; cbv iota).
Ltac go := unfold after; step; cbn [orelse].

(** The end of a statement: of the text, or a semicolon. *)
Definition stops (ts : list tok) : Prop := match ts with [] | TSemi :: _ => True | _ => False end.
Theorem p_ddl_toks sep x ts : sep_ok sep -> ddl_ok x -> stops ts ->
  p_ddl d fold (ddl_toks sep x ++ ts) = Some (respell x, ts).
Proof.
  intros S H Ht. assert (Hts : ends ts) by (destruct ts as [|[] ts]; try exact I; contradiction). unfold p_ddl.
  destruct x as [b t cs fs st|t|t cs u|t c|t c|t u|t c u|t f|t c|t c|b t n|t c ty|t c b|t c [l|]]; cbn [ddl_ok] in H;
    cbn [ddl_toks List.app]; go;
    [| |
     |(unfold p_alter; rewrite p_dname_q; go)..].
  - destruct H as [Hne Hc]. unfold p_create.
    assert (X : forall r, p_items d fold (List.length (items_toks sep cs fs ++ TRP :: r)) (items_toks sep cs fs ++ TRP :: r)
                = Some (map respell_col cs, map respell_fk fs, r)).
    { intros r. apply p_items_toks; auto. rewrite app_length. pose proof (items_length sep cs fs). lia. }
    rewrite <- !app_assoc. destruct b; cbn [List.app].
    + step. rewrite p_dname_q, <- app_assoc. cbn [List.app]. rewrite X. destruct st; cbn [List.app]; [reflexivity|]. destruct ts as [|[] ts]; try contradiction; reflexivity.
    + rewrite eats_cons, eat_q by reflexivity. rewrite p_dname_q, <- app_assoc. cbn [List.app]. rewrite X.
      destruct st; cbn [List.app]; [reflexivity|]. destruct ts as [|[] ts]; try contradiction; reflexivity.
  - unfold named. now rewrite p_dname_q.
  - unfold p_copy. rewrite p_dname_q. step. rewrite <- app_assoc. cbn [List.app].
    rewrite p_names_toks; [|assumption| |exact I].
    + step. now rewrite p_dname_q.
    + rewrite app_length. rewrite <- (map_length (fun c => [qt c]) cs) at 1.
      pose proof (seps_length [TComma] (map (fun c => [qt c]) cs)) as X.
      assert (Y : Forall (fun x => 1 <= List.length x) (map (fun c => [qt c]) cs)).
      { apply Forall_forall. intros x [c [<- _]]%in_map_iff. auto. }
      specialize (X Y). lia.
  - change (qt (cd_name c) :: (map TWord (cd_type c) ++ flat_map cons_toks (cd_cons c)) ++ ts) with (coldef_toks c ++ ts).
    rewrite p_coldef_toks; [reflexivity|assumption|assumption].
  - unfold named. now rewrite p_dname_q.
  - unfold named. now rewrite p_dname_q.
  - rewrite p_dname_q. go. unfold named. now rewrite p_dname_q.
  - change (TLP :: qt (fk_col f) :: TRP :: TWord "REFERENCES" :: qt (fk_table f) :: TLP :: qt (fk_ref f) :: TRP :: ts)
      with (fk_toks f ++ ts). now rewrite p_fk_toks.
  - unfold parenthesised. now rewrite p_in_paren_q.
  - unfold parenthesised. now rewrite p_in_paren_q.
  - destruct H as [R W].
    assert (N : p_dname d fold (TWord n :: ts) = Some (fold n, ts)).
    { cbn [p_dname]. now rewrite R, W. }
    destruct b; cbn [List.app]; step.
    + unfold named. now rewrite N.
    + rewrite eat_word.
      assert (E : String.eqb (upper n) "IF" = false).
      { destruct (String.eqb_spec (upper n) "IF") as [E|]; [|reflexivity]. rewrite E in W. discriminate. }
      rewrite E. unfold named. now rewrite N.
  - unfold p_alter_col. rewrite p_dname_q. go. rewrite p_type_toks; [reflexivity|assumption|now apply ends_not_word].
  - unfold p_alter_col. rewrite p_dname_q. destruct b; go; reflexivity.
  - unfold p_alter_col. rewrite p_dname_q. go. rewrite p_literal_toks; [reflexivity|]. destruct ts as [|[] ts]; try exact I; contradiction.
  - unfold p_alter_col. rewrite p_dname_q. go. reflexivity.
Qed.

(** A script of such statements, one after the other. *)
Definition script_toks (sep : list tok) (xs : list ddl) : list tok := flat_map (fun x => ddl_toks sep x ++ [TSemi]) xs.
Lemma p_script_toks sep xs : sep_ok sep -> Forall ddl_ok xs -> forall fuel, List.length xs <= fuel ->
  p_script d fold fuel (script_toks sep xs) = Some (map respell xs).
Proof.
  intros S H. induction H as [|x xs Hx H IH]; intros fuel L; [now destruct fuel|]. cbn in L. destruct fuel as [|fuel]; [lia|].
  cbn [script_toks flat_map map]. rewrite <- app_assoc. cbn [List.app].
  assert (X : p_ddl d fold (ddl_toks sep x ++ TSemi :: script_toks sep xs) = Some (respell x, TSemi :: script_toks sep xs))
    by (now apply p_ddl_toks).
  unfold script_toks in *. destruct (ddl_toks sep x ++ TSemi :: flat_map (fun x => ddl_toks sep x ++ [TSemi]) xs) as [|t ts] eqn:E.
  { destruct (ddl_toks sep x); discriminate. }
  cbn [p_script]. rewrite X, IH by lia. reflexivity.
Qed.
Lemma script_length sep xs : List.length xs <= List.length (script_toks sep xs).
Proof.
  induction xs as [|x xs IH]; [auto|]. cbn [script_toks flat_map]. fold (script_toks sep xs). rewrite !app_length. cbn. lia.
Qed.
Theorem parse_script_toks sep xs s : sep_ok sep -> Forall ddl_ok xs -> lex s = script_toks sep xs ->
  parse_script d fold s = Some (map respell xs).
Proof. intros S H E. unfold parse_script. rewrite E. apply p_script_toks; auto using script_length. Qed.
Lemma parse_ddl_semi sep x s : sep_ok sep -> ddl_ok x -> lex s = ddl_toks sep x ++ [TSemi] -> parse_ddl d fold s = Some (respell x).
Proof. intros S H E. unfold parse_ddl. rewrite E, p_ddl_toks by (assumption || exact I). reflexivity. Qed.
Lemma parse_ddl_bare sep x s : sep_ok sep -> ddl_ok x -> lex s = ddl_toks sep x -> parse_ddl d fold s = Some (respell x).
Proof.
  intros S H E. unfold parse_ddl. rewrite E. rewrite <- (app_nil_r (ddl_toks sep x)), p_ddl_toks by (assumption || exact I). reflexivity.
Qed.
End Grammar.

Lemma respell_id kw x : respell kw (fun s => s) x = x.
Proof.
  assert (N : forall w, spelled kw (fun s => s) w = w) by (intros w; unfold spelled; now destruct (kw w)).
  assert (C : forall c, respell_col kw (fun s => s) c = c) by (intros []; unfold respell_col; cbn; now rewrite N).
  assert (F : forall c, respell_fk kw (fun s => s) c = c) by (intros []; unfold respell_fk; cbn; now rewrite !N).
  destruct x; cbn [respell]; rewrite ?N, ?C, ?F; try reflexivity.
  - rewrite (map_ext _ _ C), (map_ext _ _ F), !map_id. reflexivity.
  - rewrite (map_ext _ _ N), map_id. reflexivity.
Qed.
