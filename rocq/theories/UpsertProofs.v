(** Insert-or-update: its text, parsed and executed. *)
From Coq Require Import Permutation DecimalString.
From Verif Require Import Base SqlVal Sql SqlStmt Query QuerySpec Stmt StmtSpec
  LexProofs RenderProofs TokProofs ParseProofs StmtProofs StmtParse StmtSem.

Section U.
Variable d : dialect.
Variable kw : string -> bool.
Hypothesis KW : quotes_enough kw d.
Hypothesis EX : reserved d "excluded" = false.
Notation q := (quote_reserved_word kw).
Variable mark : nat -> string.
Variable pt : nat -> tok.
Variable idx : nat -> Z.
Hypothesis mark_lex : forall k s, 1 <= k -> delim s -> lex_from LStart (mark k ++ s) = pt k :: lex_from LStart s.
Hypothesis pt_num : forall k r, number_params (idx k) (pt k :: r) = ptok k :: number_params (idx (k + 1)) r.
Hypothesis idx1 : idx 1 = 1%Z.
Notation cols_toks cols := (commas (map (fun c => [qtok kw c]) cols)).

Lemma lex_cols cols r : cols <> [] -> Forall (fun c => identifier c = true) cols -> delim r ->
  lex_from LStart (join ", " (map q cols) ++ r) = cols_toks cols ++ lex_from LStart r.
Proof.
  intros NE F. clear NE. revert r. induction F as [|a l Ha F IH]; [reflexivity|]. intros r Hr.
  destruct l as [|b l]; [now apply lex_q|]. cbn [map]. rewrite commas_cons.
  change (join ", " (q a :: q b :: map q l)) with (q a ++ ", " ++ join ", " (q b :: map q l))%string.
  rewrite <- !str_app_assoc, lex_q; [|assumption|reflexivity].
  change (TComma :: ?x) with ([TComma] ++ x). cbn [List.app]. f_equal.
  change (TComma :: lex_from LStart (join ", " (map q (b :: l)) ++ r)
      = TComma :: cols_toks (b :: l) ++ lex_from LStart r). f_equal. now apply IH.
Qed.

Lemma lex_marks {A} (cols : list A) (cs : list string) r : List.length cs = List.length cols -> cols <> [] -> delim r ->
  lex_from LStart (marks mark "" 1 cs ++ r) = commas (map (fun j => [pt j]) (seq 1 (List.length cols))) ++ lex_from LStart r.
Proof.
  intros L NE Hr.
  assert (R : forall l k, 1 <= k -> delim (marks mark ", " k l ++ r)).
  { intros [|c l] k Hk; [exact Hr|exact eq_refl]. }
  assert (X : forall l k, 1 <= k ->
    lex_from LStart (marks mark ", " k l ++ r) = flat_map (fun j => [TComma; pt j]) (seq k (List.length l)) ++ lex_from LStart r).
  { induction l as [|c l IH]; intros k Hk; [reflexivity|]. cbn [marks List.length seq flat_map].
    rewrite <- !str_app_assoc. change (lex_from LStart (", " ++ ?x)) with (TComma :: lex_from LStart x).
    rewrite mark_lex; [|assumption|apply R; lia]. rewrite IH by lia. reflexivity. }
  rewrite <- L. destruct cs as [|c cs]; [destruct cols; [congruence|discriminate]|].
  cbn [marks List.length seq map]. rewrite commas_flat, <- !str_app_assoc. cbn [append].
  rewrite mark_lex; [|lia|apply R; lia]. rewrite X by lia. cbn [List.app]. f_equal. f_equal.
  rewrite flat_map_map. reflexivity.
Qed.

Definition ex_tok (c : string) : list tok := [TWord "excluded"; TDot; qtok kw c].
Lemma lex_excluded cols r : cols <> [] -> Forall (fun c => identifier c = true) cols -> delim r ->
  lex_from LStart (excluded kw "" cols ++ r) = commas (map ex_tok cols) ++ lex_from LStart r.
Proof.
  intros NE F Hr.
  assert (R : forall l, delim (excluded kw ", " l ++ r)) by (intros [|c l]; [exact Hr|exact eq_refl]).
  assert (X : forall l, Forall (fun c => identifier c = true) l ->
    lex_from LStart (excluded kw ", " l ++ r) = flat_map (fun c => TComma :: ex_tok c) l ++ lex_from LStart r).
  { induction 1 as [|c l Hc Fl IH]; [reflexivity|]. cbn [excluded flat_map].
    rewrite <- !str_app_assoc. change (lex_from LStart (", " ++ "excluded." ++ ?x)) with (TComma :: TWord "excluded" :: TDot :: lex_from LStart x).
    rewrite lex_q; [|assumption|apply R]. rewrite IH. reflexivity. }
  destruct F as [|c l Hc Fl]; [congruence|]. cbn [excluded map]. rewrite commas_flat, <- !str_app_assoc.
  change (lex_from LStart ("" ++ "excluded." ++ ?x)) with (TWord "excluded" :: TDot :: lex_from LStart x).
  rewrite lex_q; [|assumption|apply R]. rewrite X by assumption. cbn [ex_tok List.app]. do 3 f_equal.
  rewrite flat_map_map. reflexivity.
Qed.

Definition action_toks (cols : list string) : list tok :=
  if Nat.ltb 1 (List.length cols)
  then TWord "UPDATE" :: TWord "SET" :: TLP :: cols_toks cols ++ TRP :: TOp CEq :: TLP :: commas (map ex_tok cols) ++ [TRP]
  else [TWord "NOTHING"].
Definition upsert_toks (mk : nat -> tok) t cols pk : list tok :=
  TWord "INSERT" :: TWord "INTO" :: qtok kw t :: TLP :: cols_toks cols ++ TRP :: TWord "VALUES" :: TLP
  :: commas (map (fun j => [mk j]) (seq 1 (List.length cols))) ++ TRP :: TWord "ON" :: TWord "CONFLICT" :: TLP
  :: qtok kw pk :: TRP :: TWord "DO" :: action_toks cols.

Lemma lex_upsert t cols pk : identifier t = true -> identifier pk = true -> cols <> [] ->
  Forall (fun c => identifier c = true) cols ->
  lex (sql_insert_or_update kw mark t cols pk) = upsert_toks pt t cols pk.
Proof.
  intros Ht Hp NE F. unfold lex, sql_insert_or_update, upsert_toks.
  change (lex_from LStart ("INSERT " ++ "INTO " ++ ?x)) with (TWord "INSERT" :: TWord "INTO" :: lex_from LStart x).
  do 2 f_equal. rewrite lex_q; [|assumption|reflexivity]. f_equal.
  change (lex_from LStart (" (" ++ ?x)) with (TLP :: lex_from LStart x). f_equal.
  rewrite lex_cols; [|assumption|assumption|reflexivity]. f_equal.
  change (lex_from LStart (") VALUES (" ++ ?x)) with (TRP :: TWord "VALUES" :: TLP :: lex_from LStart x). do 3 f_equal.
  rewrite (lex_marks cols); [|reflexivity|assumption|reflexivity]. f_equal.
  change (lex_from LStart (")" ++ " ON CONFLICT (" ++ ?x)) with (TRP :: TWord "ON" :: TWord "CONFLICT" :: TLP :: lex_from LStart x). do 4 f_equal.
  rewrite lex_q; [|assumption|reflexivity]. f_equal.
  change (lex_from LStart (") DO " ++ ?x)) with (TRP :: TWord "DO" :: lex_from LStart x). do 2 f_equal.
  unfold action_toks. destruct (Nat.ltb 1 (List.length cols)); [|reflexivity].
  change (lex_from LStart ("UPDATE SET (" ++ ?x)) with (TWord "UPDATE" :: TWord "SET" :: TLP :: lex_from LStart x). do 3 f_equal.
  rewrite lex_cols; [|assumption|assumption|reflexivity]. f_equal.
  change (lex_from LStart (") = (" ++ ?x)) with (TRP :: TOp CEq :: TLP :: lex_from LStart x). do 3 f_equal.
  rewrite lex_excluded; [|assumption|assumption|reflexivity]. reflexivity.
Qed.

Lemma numbers_list l0 : forall k n r, 0 < n ->
  number_params (idx k) (commas (map (fun j => [pt j]) (seq k n)) ++ l0 ++ r)
  = commas (map (fun j => [ptok j]) (seq k n)) ++ number_params (idx (k + n)) (l0 ++ r).
Proof.
  intros k n. revert k. induction n as [|n IH]; intros k r H; [lia|]. destruct n as [|n].
  - cbn [seq map commas List.app]. apply pt_num.
  - change (seq k (S (S n))) with (k :: seq (S k) (S n)). 
    change (map ?f (k :: seq (S k) (S n))) with (f k :: map f (seq (S k) (S n))). cbv beta.
    change (seq (S k) (S n)) with (S k :: seq (S (S k)) n) at 1 2. cbn [map]. rewrite !commas_cons.
    rewrite <- !app_assoc. cbn [List.app]. rewrite pt_num. f_equal. cbn [number_params]. f_equal.
    specialize (IH (S k) r ltac:(lia)). cbn [seq map] in IH. rewrite Nat.add_1_r, IH. do 2 f_equal. f_equal. lia.
Qed.

Lemma no_q_cols cols : no_q (cols_toks cols).
Proof.
  induction cols as [|a [|b l] IH]; [exact I|apply qtok_no_q|].
  cbn [map]. rewrite commas_cons. apply no_q_app; [apply qtok_no_q|exact IH].
Qed.
Lemma no_q_ex cols : no_q (commas (map ex_tok cols)).
Proof.
  assert (X : forall c, no_q (ex_tok c)).
  { intros c. unfold ex_tok. do 2 (apply no_q_cons; [exact I|]). apply qtok_no_q. }
  induction cols as [|a [|b l] IH]; [exact I|apply X|].
  cbn [map]. rewrite commas_cons. apply no_q_app; [apply X|exact IH].
Qed.
Lemma number_end k ts : no_q ts -> number_params k ts = ts.
Proof. intros H. rewrite <- (app_nil_r ts) at 1. rewrite number_no_q by assumption. apply app_nil_r. Qed.

Lemma tokens_upsert t cols pk : identifier t = true -> identifier pk = true -> cols <> [] ->
  Forall (fun c => identifier c = true) cols ->
  tokens (sql_insert_or_update kw mark t cols pk) = upsert_toks ptok t cols pk.
Proof.
  intros Ht Hp NE F. unfold tokens. rewrite lex_upsert by assumption. unfold upsert_toks.
  set (tl := TRP :: TWord "ON" :: _).
  assert (Ntl : no_q tl).
  { unfold tl. do 4 (apply no_q_cons; [exact I|]). apply no_q_cons; [apply qtok_no_q|]. do 2 (apply no_q_cons; [exact I|]).
    unfold action_toks. destruct (Nat.ltb 1 (List.length cols)); [|exact I]. do 3 (apply no_q_cons; [exact I|]).
    apply no_q_app; [apply no_q_cols|]. do 3 (apply no_q_cons; [exact I|]). apply no_q_app; [apply no_q_ex|exact I]. }
  set (a := TWord "INSERT" :: TWord "INTO" :: qtok kw t :: TLP :: cols_toks cols ++ [TRP; TWord "VALUES"; TLP]).
  assert (Na : no_q a).
  { unfold a. do 2 (apply no_q_cons; [exact I|]). apply no_q_cons; [apply qtok_no_q|]. apply no_q_cons; [exact I|].
    apply no_q_app; [apply no_q_cols|exact I]. }
  assert (Sp : forall m, TWord "INSERT" :: TWord "INTO" :: qtok kw t :: TLP :: cols_toks cols ++ TRP :: TWord "VALUES" :: TLP :: m = a ++ m).
  { intros m. unfold a. cbn [List.app]. now rewrite <- app_assoc. }
  rewrite !Sp, number_no_q by assumption. f_equal. rewrite <- idx1.
  pose proof (numbers_list tl 1 (List.length cols) [] ltac:(destruct cols; [congruence|cbn; lia])) as X.
  rewrite app_nil_r in X. rewrite X. f_equal. now apply number_end.
Qed.

Lemma ex_value c r : no_dot r -> p_value d (ex_tok c ++ r) = Some (SCol (Some "excluded", c), r).
Proof.
  intros Hr. unfold p_value, fuel_for. cbn [ex_tok List.app List.length]. rewrite Nat.mul_comm. cbn [Nat.mul Nat.add].
  rewrite p_operand_S.
  change (eat "TRUE" (TWord "excluded" :: ?x)) with (@None (list tok)).
  change (eat "FALSE" (TWord "excluded" :: ?x)) with (@None (list tok)).
  change (eat "NULL" (TWord "excluded" :: ?x)) with (@None (list tok)). cbv beta iota.
  unfold p_colref. cbn [p_name]. rewrite EX. rewrite (p_name_q d kw KW). reflexivity.
Qed.

Definition excl (c : string) : sexp := SCol (Some "excluded", c).
Lemma upsert_parsed t cols pk : cols <> [] ->
  p_stmt d (upsert_toks ptok t cols pk)
  = Some (Insert t cols (params 1 (List.length cols))
            (if Nat.ltb 1 (List.length cols) then Update_if pk (combine cols (map excl cols)) else Nothing_if pk) None, []).
Proof.
  intros NE. unfold upsert_toks. unfold p_stmt, p_select, p_insert.
  change (eat "SELECT" (TWord "INSERT" :: ?x)) with (@None (list tok)).
  change (eat "INSERT" (TWord "INSERT" :: ?x)) with (Some x). cbv beta iota.
  change (eat "INTO" (TWord "INTO" :: ?x)) with (Some x). cbv beta iota.
  rewrite (p_name_q d kw KW).
  change (eat "DEFAULT" (TLP :: ?x)) with (@None (list tok)). cbv beta iota.
  rewrite (paren_names d kw KW) by assumption.
  change (eat "VALUES" (TWord "VALUES" :: ?x)) with (Some x). cbv beta iota.
  change (commas (map (fun j => [ptok j]) (seq 1 (List.length cols)))) with (ptoks 1 (List.length cols)).
  rewrite (paren_params d) by (destruct cols; [congruence|cbn; lia]).
  assert (Cf : p_conflict d (TWord "ON" :: TWord "CONFLICT" :: TLP :: qtok kw pk :: TRP :: TWord "DO" :: action_toks cols)
    = Some (if Nat.ltb 1 (List.length cols) then Update_if pk (combine cols (map excl cols)) else Nothing_if pk, [])).
  { unfold p_conflict. change (eat "ON" (TWord "ON" :: ?x)) with (Some x). cbv beta iota.
    change (eat "CONFLICT" (TWord "CONFLICT" :: ?x)) with (Some x). cbv beta iota.
    pose proof (paren_names d kw KW [pk] (TWord "DO" :: action_toks cols) ltac:(discriminate)) as Pk.
    cbn [map commas List.app] in Pk. rewrite Pk. clear Pk.
    change (eat "DO" (TWord "DO" :: ?x)) with (Some x). cbv beta iota.
    unfold action_toks. destruct (Nat.ltb 1 (List.length cols)); [|reflexivity].
    change (eat "NOTHING" (TWord "UPDATE" :: ?x)) with (@None (list tok)). cbv beta iota.
    change (eat "UPDATE" (TWord "UPDATE" :: ?x)) with (Some x). cbv beta iota.
    change (eat "SET" (TWord "SET" :: ?x)) with (Some x). cbv beta iota.
    rewrite (paren_names d kw KW) by assumption. unfold p_paren.
    pose proof (p_sep_commas (p_value d) no_dot (map (fun c => (ex_tok c, excl c)) cols)) as X.
    rewrite !map_map in X. cbn [fst snd] in X. change (map (fun x => ex_tok x) cols) with (map ex_tok cols) in X.
    change (map (fun x => excl x) cols) with (map excl cols) in X. rewrite X; clear X.
    - unfold same_length. now rewrite map_length, Nat.eqb_refl.
    - destruct cols; [congruence|discriminate].
    - apply Forall_forall. intros it Hi. apply in_map_iff in Hi as (c & <- & _). intros r. apply ex_value.
    - intros r. exact I.
    - exact I.
    - exact I.
    - rewrite map_length, app_length.
      assert (Fx : Forall (fun x : list tok => x <> []) (map ex_tok cols)).
      { apply Forall_forall. intros x Hx. apply in_map_iff in Hx as (c & <- & _). discriminate. }
      apply commas_length in Fx. rewrite map_length in Fx. lia. }
  rewrite Cf. cbv beta iota. change (p_returning d []) with (Some (@None string, @nil tok)). cbv beta iota.
  unfold same_length. rewrite map_length, seq_length, Nat.eqb_refl. reflexivity.
Qed.

Lemma upsert_text_ok t cols pk : identifier t = true -> identifier pk = true -> cols <> [] ->
  Forall (fun c => identifier c = true) cols ->
  parse_stmt d (sql_insert_or_update kw mark t cols pk)
  = Some (Insert t cols (params 1 (List.length cols))
            (if Nat.ltb 1 (List.length cols) then Update_if pk (combine cols (map excl cols)) else Nothing_if pk) None).
Proof.
  intros Ht Hp NE F. unfold parse_stmt. rewrite tokens_upsert, upsert_parsed by assumption. reflexivity.
Qed.
End U.

(** * Meaning *)

Lemma field_combine_in cols vs (r : row) c : List.length vs = List.length cols -> In c cols ->
  exists v, field c (combine cols vs) = Some v /\ field c (combine cols vs ++ r) = Some v.
Proof.
  revert vs. induction cols as [|a cols IH]; intros [|v vs] L I; try discriminate L; [destruct I|].
  cbn. destruct (String.eqb_spec a c); [eauto|]. apply IH; [cbn in L; lia|]. destruct I; [congruence|assumption].
Qed.
Lemma excluded_value E D V t r (new : row) c v : t <> "excluded" -> field c new = Some v ->
  sval E D V [[(t, r); ("excluded", new)]] (excl c) = Some v.
Proof.
  intros Ht Hv. cbn [sval excl]. cbn [lookup]. unfold candidates. cbn [flat_map fst snd].
  destruct (String.eqb_spec "excluded" t); [congruence|]. change (String.eqb "excluded" "excluded") with true. cbv iota.
  rewrite Hv. reflexivity.
Qed.
Lemma excluded_sets E D V t r rest cols vs : t <> "excluded" -> List.length vs = List.length cols -> NoDup cols ->
  sets_in E D V [[(t, r); ("excluded", combine cols vs ++ rest)]] (combine cols (map excl cols)) = Some (combine cols vs).
Proof.
  intros Ht L N. set (new := combine cols vs ++ rest).
  assert (X : forall cs us, List.length us = List.length cs -> (forall c v, In (c, v) (combine cs us) -> field c new = Some v) ->
    sets_in E D V [[(t, r); ("excluded", new)]] (combine cs (map excl cs)) = Some (combine cs us)).
  { induction cs as [|c cs IH]; intros [|v us] Lu H; try discriminate Lu; [reflexivity|].
    unfold sets_in. cbn [map combine fst snd]. rewrite (excluded_value E D V t r new c v Ht); [|apply H; now left].
    cbn [option_map all_some]. unfold sets_in in IH. rewrite (IH us); [reflexivity|cbn in Lu; lia|]. intros c' v' Hi. apply H. now right. }
  apply X; [assumption|]. intros c v Hi. unfold new. clear -N Hi L. revert vs Hi L. induction cols as [|a cols IH]; intros [|w vs] Hi L; try discriminate L; [destruct Hi|].
  inversion N as [|? ? N1 N2]; subst. cbn. destruct Hi as [Hi|Hi].
  - injection Hi as -> ->. now rewrite String.eqb_refl.
  - destruct (String.eqb_spec a c) as [->|]; [exfalso; apply N1; exact (in_combine_l _ _ _ _ Hi)|]. apply IH; [assumption|assumption|cbn in L; lia].
Qed.

Lemma conflicts_key E pk kv (l : list row) : Forall (fun r => In pk (map fst r)) l ->
  exists ts, all_some (map (conflicting E pk kv) l) = Some ts
    /\ existsb (fun t => match t with Some true => true | _ => false end) ts = existsb (has_key E pk kv) l.
Proof.
  induction 1 as [|r l Hr F (ts & E1 & E2)]; [exists []; split; reflexivity|].
  assert (Q : exists y, field pk r = Some y).
  { clear -Hr. induction r as [|(n, x) r IH]; [destruct Hr|].
    cbn. destruct (String.eqb_spec n pk); [eauto|]. apply IH. destruct Hr; [cbn in *; congruence|assumption]. }
  destruct Q as (y & Hy). exists (compare3 E CEq y kv :: ts). cbn [map all_some existsb].
  unfold conflicting at 1. rewrite Hy. cbn [option_map]. rewrite E1. split; [reflexivity|].
  rewrite E2. unfold has_key at 2. rewrite Hy. reflexivity.
Qed.

Lemma upsert_meaning E D fill t pk cols vs kv :
  t <> "excluded" -> List.length vs = List.length cols -> NoDup cols -> In pk cols ->
  field pk (combine cols vs) = Some kv -> Forall (row_has cols) (D t) ->
  exec E fill D vs (Insert t cols (params 1 (List.length cols))
       (if Nat.ltb 1 (List.length cols) then Update_if pk (combine cols (map excl cols)) else Nothing_if pk) None)
  = Some (if existsb (has_key E pk kv) (D t)
          then (if Nat.ltb 1 (List.length cols)
                then with_table D t (rewrite_rows (has_key E pk kv) (assign (combine cols vs)) (D t)) else D, None)
          else (with_table D t (D t ++ [combine cols vs ++ fill t cols]), None)).
Proof.
  intros Ht L N I Hk F. cbn [exec]. rewrite <- L at 1. rewrite params_values by apply carries_self. cbn [obind2].
  destruct (field_combine_in cols vs (fill t cols) pk L I) as (v & Hv1 & Hv2). rewrite Hk in Hv1. injection Hv1 as <-.
  assert (FP : Forall (fun r => In pk (map fst r)) (D t)).
  { eapply Forall_impl; [|exact F]. intros r [_ Hi]. now apply Hi. }
  destruct (conflicts_key E pk kv (D t) FP) as (ts & E1 & E2).
  destruct (Nat.ltb 1 (List.length cols)); rewrite Hv2; cbn [obind2]; rewrite E1; cbn [obind2]; rewrite E2;
    destruct (existsb (has_key E pk kv) (D t)); try reflexivity.
  assert (X : forall l, Forall (row_has cols) l -> update_rows (conflicting E pk kv)
     (fun r => obind2 (sets_in E D vs [[(t, r); ("excluded", combine cols vs ++ fill t cols)]] (combine cols (map excl cols)))
                (fun l => set_fields l r)) l
     = Some (rewrite_rows (has_key E pk kv) (assign (combine cols vs)) l)).
  { induction 1 as [|r l [Nr Hi] Fl IH]; [reflexivity|]. cbn [update_rows rewrite_rows map]. rewrite IH.
    assert (Q : exists y, field pk r = Some y).
    { assert (In pk (map fst r)) as Hc by now apply Hi. clear -Hc. induction r as [|(n, x) r IH]; [destruct Hc|].
      cbn. destruct (String.eqb_spec n pk); [eauto|]. apply IH. destruct Hc; [cbn in *; congruence|assumption]. }
    destruct Q as (y & Hy). assert (HK : has_key E pk kv r = match compare3 E CEq y kv with Some true => true | _ => false end)
      by (unfold has_key; now rewrite Hy).
    unfold conflicting at 1. rewrite HK, Hy. cbn [option_map]. destruct (compare3 E CEq y kv) as [[|]|]; try reflexivity.
    rewrite excluded_sets by assumption. cbn [obind2]. rewrite set_fields_assign; [reflexivity|assumption|].
    intros a Ha. apply Hi. apply in_map_iff in Ha as ((a' & v') & <- & Ha). exact (in_combine_l _ _ _ _ Ha). }
  rewrite X by assumption. reflexivity.
Qed.
