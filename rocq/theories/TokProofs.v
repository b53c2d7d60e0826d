(** The tokens of a generated filter text. *)
From Verif Require Import Base SqlVal Sql Query QuerySpec LexProofs RenderProofs.

Section Toks.
Variable kw : string -> bool.
Variable pt : nat -> tok.     (* token of the k-th placeholder *)
Notation q := (quote_reserved_word kw).

Definition qtok (w : string) : tok := if kw w then TQuoted w else TWord w.
Definition kval (k : nat) (v : SqlVal) : list tok :=
  match v with VInt i | VBigInt i => znum i | _ => [pt k] end.
Definition kcol (c : Column) : list tok :=
  match col_table c with
  | Some t => [qtok t; TDot; qtok (col_name c)]
  | None => [TWord (col_name c)]
  end.
Definition kjoin (j : Join) : list tok :=
  TWord "INNER" :: TWord "JOIN" :: qtok (join_table j) :: TWord "ON" :: kcol (join_col1 j)
  ++ TOp CEq :: kcol (join_col2 j).
Fixpoint kvals (k : nat) (vs : list SqlVal) : list tok :=
  match vs with
  | [] => []
  | [v] => kval k v
  | v :: r => kval k v ++ TComma :: kvals (k + vph v) r
  end.
Definition kop (k : nat) (x : Expr) : list tok :=
  match x with EColumn c => [qtok c] | EVal v => kval k v | EPlaceholder => [pt k] | ECond _ => [TBad] end.

Fixpoint toks (k : nat) (e : BoolExpr) : list tok :=
  match e with
  | BTrue => [TWord "TRUE"]
  | BEq c (EVal VNull) => [TWord c; TWord "IS"; TWord "NULL"]
  | BNe c (EVal VNull) => [TWord c; TWord "IS"; TWord "NOT"; TWord "NULL"]
  | BEq c x => TWord c :: TOp CEq :: kop k x
  | BNe c x => TWord c :: TOp CNe :: kop k x
  | BLt c x => TWord c :: TOp CLt :: kop k x
  | BGt c x => TWord c :: TOp CGt :: kop k x
  | BLe c x => TWord c :: TOp CLe :: kop k x
  | BGe c x => TWord c :: TOp CGe :: kop k x
  | BLike c x => TWord c :: TWord "like" :: kop k x
  | BAllOf l =>
      (fix all (k : nat) (l : list BoolExpr) : list tok :=
         match l with
         | [] => []
         | x :: l' => match l' with
                      | [] => toks k x
                      | _ => toks k x ++ TWord "AND" :: all (k + nph x) l'
                      end
         end) k l
  | BAnd a b => toks k a ++ TWord "AND" :: toks (k + nph a) b
  | BOr a b => toks k a ++ TWord "OR" :: toks (k + nph a) b
  | BNot a => TWord "NOT" :: toks k a
  | BSubquery c t tc a =>
      qtok c :: TWord "IN" :: TLP :: TWord "SELECT" :: qtok tc :: TWord "FROM" :: qtok t
      :: TWord "WHERE" :: toks k a ++ [TRP]
  | BSubqueryJoin c t c2 js a =>
      qtok c :: TWord "IN" :: TLP :: TWord "SELECT" :: kcol c2 ++ TWord "FROM" :: qtok t
      :: flat_map kjoin js ++ TWord "WHERE" :: toks k a ++ [TRP]
  | BIn c vs => qtok c :: TWord "IN" :: TLP :: kvals k vs ++ [TRP]
  end.
Fixpoint toks_all (k : nat) (l : list BoolExpr) : list tok :=
  match l with
  | [] => []
  | x :: l' => match l' with
               | [] => toks k x
               | _ => toks k x ++ TWord "AND" :: toks_all (k + nph x) l'
               end
  end.
Lemma toks_AllOf k l : toks k (BAllOf l) = toks_all k l.
Proof. reflexivity. Qed.

Variable ph : nat -> string.
Variables lo hi : nat.
(** The lexer reads the k-th placeholder as its token. *)
Hypothesis ph_lex : forall k s, lo <= k -> k < hi -> delim s ->
  lex_from LStart (ph k ++ s) = pt k :: lex_from LStart s.

Lemma lex_q w s : identifier w = true -> delim s ->
  lex_from LStart (q w ++ s) = qtok w :: lex_from LStart s.
Proof.
  intros H Hs. unfold quote_reserved_word, qtok. destruct (kw w); [|now apply lex_ident].
  rewrite <- !str_app_assoc. now apply lex_quoted.
Qed.
Lemma lex_q_dot w s : identifier w = true ->
  lex_from LStart (q w ++ String "." s) = qtok w :: TDot :: lex_from LStart s.
Proof.
  intros H. unfold quote_reserved_word, qtok. destruct (kw w); [|now apply lex_ident_dot].
  rewrite <- !str_app_assoc. rewrite lex_quoted by assumption. reflexivity.
Qed.

Lemma lex_val k v s : lo <= k -> k + vph v <= hi -> delim s ->
  lex_from LStart (tval ph k v ++ s) = kval k v ++ lex_from LStart s.
Proof.
  intros Hl H Hs. destruct v; cbn [tval kval]; try (apply ph_lex; [assumption|cbn in H; lia|assumption]);
    now apply lex_dec.
Qed.

Lemma lex_vals vs : forall k s, lo <= k -> k + nvals vs <= hi -> delim s ->
  lex_from LStart (tvals ph k vs ++ s) = kvals k vs ++ lex_from LStart s.
Proof.
  induction vs as [|v [|u r] IH]; intros k s Hl H Hs.
  - reflexivity.
  - cbn [tvals kvals nvals] in *. apply lex_val; [assumption|lia|assumption].
  - change (tvals ph k (v :: u :: r)) with (tval ph k v ++ ", " ++ tvals ph (k + vph v) (u :: r))%string.
    change (kvals k (v :: u :: r)) with (kval k v ++ TComma :: kvals (k + vph v) (u :: r)).
    change (nvals (v :: u :: r)) with (vph v + nvals (u :: r)) in H.
    rewrite <- !str_app_assoc. rewrite lex_val; [|assumption|lia|reflexivity].
    rewrite <- app_assoc. cbn [List.app]. rewrite <- IH; [reflexivity|lia|lia|assumption].
Qed.

Variable d : dialect.

Lemma lex_col c s : column_ok d c -> delim s ->
  lex_from LStart (tcol kw c ++ s) = kcol c ++ lex_from LStart s.
Proof.
  unfold column_ok, tcol, kcol. destruct (col_table c) as [t|].
  - intros [Ht Hc] Hs. rewrite <- !str_app_assoc. change ("." ++ q (col_name c) ++ s)%string with (String "." (q (col_name c) ++ s)).
    rewrite lex_q_dot by assumption. rewrite lex_q by assumption. reflexivity.
  - intros [Hc _] Hs. now apply lex_ident.
Qed.

Lemma lex_joins js s : List.length js <= 1 ->
  Forall (fun j => identifier (join_table j) = true
                   /\ column_ok d (join_col1 j) /\ column_ok d (join_col2 j)) js ->
  delim s ->
  lex_from LStart (tjoins kw js ++ s) = flat_map kjoin js ++ lex_from LStart s.
Proof.
  intros L F Hs. destruct js as [|j [|]]; [reflexivity| |cbn in L; lia].
  inversion F as [|? ? (H1 & H2 & H3) _]; subst.
  cbn [tjoins flat_map]. rewrite app_nil_r, str_app_nil_r. rewrite <- !str_app_assoc.
  assert (E1 : forall r, lex_from LStart ("INNER JOIN " ++ r) = TWord "INNER" :: TWord "JOIN" :: lex_from LStart r)
    by reflexivity.
  assert (E2 : forall r, lex_from LStart (" ON " ++ r) = TWord "ON" :: lex_from LStart r) by reflexivity.
  assert (E3 : forall r, lex_from LStart (" = " ++ r) = TOp CEq :: lex_from LStart r) by reflexivity.
  rewrite E1, lex_q, E2, lex_col, E3, lex_col; try assumption; try reflexivity.
  unfold kjoin. cbn [List.app]. rewrite <- !app_assoc. reflexivity.
Qed.

Lemma lex_op k x s : operand_ok x -> lo <= k -> k + nphop x <= hi -> delim s ->
  lex_from LStart (textop kw ph k x ++ s) = kop k x ++ lex_from LStart s.
Proof.
  destruct x as [c|v| |]; cbn [operand_ok textop kop nphop]; intros H Hl Hh Hs.
  - now apply lex_q.
  - now apply lex_val.
  - contradiction.
  - contradiction.
Qed.

Lemma lex_cmp c o ot k x s :
  bare_name d c -> operand_ok x -> lo <= k -> k + nphop x <= hi -> delim s ->
  (forall r, lex_from LStart (o ++ r) = ot :: lex_from LStart r) ->
  (forall r, delim (o ++ r)) ->
  lex_from LStart ((c ++ o ++ textop kw ph k x) ++ s) = TWord c :: ot :: kop k x ++ lex_from LStart s.
Proof.
  intros [Hc _] Hx Hl Hh Hs Ho Hd. rewrite <- !str_app_assoc.
  rewrite lex_ident by auto. rewrite Ho. rewrite lex_op by assumption. reflexivity.
Qed.

Lemma all_forall {A} (Q : A -> Prop) l : fold_right (fun x acc => Q x /\ acc) True l <-> Forall Q l.
Proof.
  induction l as [|x l IH]; cbn; [split; auto|]. rewrite IH. split.
  - intros [H1 H2]. now constructor.
  - intros H. inversion H; auto.
Qed.

(** A filter whose text is not empty. *)
Lemma lex_cond e : forall k s,
  no_empty_all e -> supported d e -> lo <= k -> k + nph e <= hi -> delim s ->
  lex_from LStart (text kw ph k e ++ s) = toks k e ++ lex_from LStart s.
Proof.
  induction e as [|c x H|c x H|c x H|c x H|c x H|c x H|c x H|l H|a b Ha Hb|a b Ha Hb|a Ha|c t tc a Ha|c vs|c t c2 js a Ha]
    using filter_ind; intros k s B S Hl Hh Hs.
  - destruct s as [|ch s]; [reflexivity|]. apply (lex_ident "TRUE"); [reflexivity|assumption].
  - destruct S as [Sc Sx].
    assert (X : k + nphop x <= hi -> lex_from LStart ((c ++ " = " ++ textop kw ph k x) ++ s)
                = TWord c :: TOp CEq :: kop k x ++ lex_from LStart s)
      by (intros; apply lex_cmp; auto; reflexivity).
    destruct x as [|v| |]; try contradiction Sx; [exact (X Hh)|].
    destruct v; try exact (X Hh).
    cbn [text toks]. rewrite <- str_app_assoc. rewrite lex_ident; [|apply Sc|reflexivity].
    cbn [List.app]. f_equal. change (TWord "IS" :: lex_from (LWord "NULL") s
      = TWord "IS" :: TWord "NULL" :: lex_from LStart s). f_equal.
    apply (lex_word_from "NULL" "" s); [reflexivity|assumption].
  - destruct S as [Sc Sx].
    assert (X : k + nphop x <= hi -> lex_from LStart ((c ++ " <> " ++ textop kw ph k x) ++ s)
                = TWord c :: TOp CNe :: kop k x ++ lex_from LStart s)
      by (intros; apply lex_cmp; auto; reflexivity).
    destruct x as [|v| |]; try contradiction Sx; [exact (X Hh)|].
    destruct v; try exact (X Hh).
    cbn [text toks]. rewrite <- str_app_assoc. rewrite lex_ident; [|apply Sc|reflexivity].
    cbn [List.app]. f_equal. change (TWord "IS" :: TWord "NOT" :: lex_from (LWord "NULL") s
      = TWord "IS" :: TWord "NOT" :: TWord "NULL" :: lex_from LStart s). do 2 f_equal.
    apply (lex_word_from "NULL" "" s); [reflexivity|assumption].
  - destruct S as [Sc Sx]. apply lex_cmp; auto; reflexivity.
  - destruct S as [Sc Sx]. apply lex_cmp; auto; reflexivity.
  - destruct S as [Sc Sx]. apply lex_cmp; auto; reflexivity.
  - destruct S as [Sc Sx]. apply lex_cmp; auto; reflexivity.
  - destruct S as [Sc Sx]. apply lex_cmp; auto; reflexivity.
  - rewrite text_AllOf, toks_AllOf. cbn [supported] in S. rewrite all_forall in S.
    cbn [no_empty_all] in B. destruct B as [_ B']. rewrite all_forall in B'. cbn [nph] in Hh.
    revert k Hl Hh. induction l as [|x l IH]; intros k Hl Hh; [reflexivity|].
    inversion H; inversion S; inversion B'; subst.
    cbn [text_all toks_all]. destruct l as [|y l].
    + cbn in Hh. eapply H2; eauto. lia.
    + cbn [fold_right] in Hh. rewrite <- !str_app_assoc.
      rewrite H2; [|assumption|assumption|assumption|lia|reflexivity].
      rewrite <- app_assoc. f_equal.
      change (lex_from LStart (" AND " ++ text_all kw ph (k + nph x) (y :: l) ++ s))
        with (TWord "AND" :: lex_from LStart (text_all kw ph (k + nph x) (y :: l) ++ s)).
      cbn [List.app]. f_equal. apply IH; auto; [lia|]. cbn [fold_right]. lia.
  - cbn [text toks no_empty_all supported nph] in *. destruct B as (Ba & Bb), S as [Sa Sb].
    rewrite <- !str_app_assoc. rewrite Ha; [|assumption|assumption|assumption|lia|reflexivity].
    rewrite <- app_assoc. f_equal.
    change (TWord "AND" :: lex_from LStart (text kw ph (k + nph a) b ++ s)
            = TWord "AND" :: toks (k + nph a) b ++ lex_from LStart s). f_equal.
    apply Hb; auto; lia.
  - cbn [text toks no_empty_all supported nph] in *. destruct B as (Ba & Bb), S as [Sa Sb].
    rewrite <- !str_app_assoc. rewrite Ha; [|assumption|assumption|assumption|lia|reflexivity].
    rewrite <- app_assoc. f_equal.
    change (TWord "OR" :: lex_from LStart (text kw ph (k + nph a) b ++ s)
            = TWord "OR" :: toks (k + nph a) b ++ lex_from LStart s). f_equal.
    apply Hb; auto; lia.
  - cbn [text toks no_empty_all supported nph] in *. rewrite <- !str_app_assoc.
    change (TWord "NOT" :: lex_from LStart (text kw ph k a ++ s)
            = TWord "NOT" :: toks k a ++ lex_from LStart s). f_equal. apply Ha; auto.
  - cbn [text toks no_empty_all supported nph] in *. destruct S as (Sc & St & Stc & Sa).
    rewrite <- !str_app_assoc.
    assert (E1 : forall r, lex_from LStart (" IN (SELECT " ++ r) = TWord "IN" :: TLP :: TWord "SELECT" :: lex_from LStart r) by reflexivity.
    assert (E2 : forall r, lex_from LStart (" FROM " ++ r) = TWord "FROM" :: lex_from LStart r) by reflexivity.
    assert (E3 : forall r, lex_from LStart (" WHERE " ++ r) = TWord "WHERE" :: lex_from LStart r) by reflexivity.
    rewrite lex_q, E1, lex_q, E2, lex_q, E3, Ha; auto; try reflexivity.
    cbn [List.app]. rewrite <- app_assoc. reflexivity.
  - cbn [text toks no_empty_all supported nph] in *. destruct S as (Sc & _).
    rewrite <- !str_app_assoc.
    assert (E1 : forall r, lex_from LStart (" IN (" ++ r) = TWord "IN" :: TLP :: lex_from LStart r) by reflexivity.
    rewrite lex_q, E1, lex_vals; auto; try reflexivity.
    cbn [List.app]. rewrite <- app_assoc. reflexivity.
  - cbn [text toks no_empty_all supported nph] in *. destruct S as (Sc & St & Sc2 & Slen & Sjs & Sa).
    rewrite <- !str_app_assoc.
    assert (E1 : forall r, lex_from LStart (" IN (SELECT " ++ r) = TWord "IN" :: TLP :: TWord "SELECT" :: lex_from LStart r) by reflexivity.
    assert (E2 : forall r, lex_from LStart (" FROM " ++ r) = TWord "FROM" :: lex_from LStart r) by reflexivity.
    assert (E3 : forall r, lex_from LStart (" WHERE " ++ r) = TWord "WHERE" :: lex_from LStart r) by reflexivity.
    rewrite lex_q, E1, lex_col, E2, lex_q, lex_space, lex_joins, E3, Ha; auto; try reflexivity.
    cbn [List.app]. rewrite <- ?app_assoc. cbn [List.app]. rewrite <- ?app_assoc. cbn [List.app]. rewrite <- ?app_assoc. reflexivity.
Qed.
End Toks.

Lemma bracket_free_no_empty e : forall p, bracket_free p e -> no_empty_all e.
Proof.
  induction e as [|c x H|c x H|c x H|c x H|c x H|c x H|c x H|l H|a b Ha Hb|a b Ha Hb|a Ha|c t tc a Ha|c vs|c t c2 js a Ha]
    using filter_ind; intros p; cbn [bracket_free no_empty_all]; try tauto.
  - destruct l as [|x [|y r]]; [contradiction| |].
    + inversion H; subst. intros B. split; [congruence|]. cbn. split; [eauto|exact I].
    + intros [_ B]. split; [congruence|]. rewrite all_forall in *. rewrite Forall_forall in *. eauto.
  - intros (_ & A & B). eauto.
  - intros (_ & A & B). eauto.
  - eauto.
  - eauto.
  - eauto.
Qed.
