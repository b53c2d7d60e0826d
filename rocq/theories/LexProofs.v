(** Lemmas about the lexer: reading back names, numbers and parameters. *)
From Coq Require Import DecimalString DecimalZ DecimalPos DecimalN DecimalFacts.
From Verif Require Import Base SqlVal Sql Query QuerySpec.

(** The text that may follow a word, number or parameter without becoming part of it. *)
Definition delim_char (c : ascii) : bool :=
  match c with " " | ")" | "," | "(" | ";" | "010" => true | _ => false end%char.
Definition delim (s : string) : Prop :=
  match s with "" => True | String c _ => delim_char c = true end.

Lemma delim_not_word c : delim_char c = true -> is_word c = false /\ is_digit c = false /\ Ascii.eqb c "." = false.
Proof.
  intros H. destruct c as [[] [] [] [] [] [] [] []]; cbn in H; try discriminate; repeat split.
Qed.

Lemma snoc_app a c s : (snoc a c ++ s = a ++ String c s)%string.
Proof. unfold snoc. rewrite <- str_app_assoc. reflexivity. Qed.

Lemma all_chars_app p a b : all_chars p (a ++ b)%string = all_chars p a && all_chars p b.
Proof. induction a as [|c a IH]; cbn; [reflexivity|]. rewrite IH. now rewrite andb_assoc. Qed.

Lemma lex_word_from a w s :
  all_chars is_word w = true -> delim s ->
  lex_from (LWord a) (w ++ s) = TWord (a ++ w)%string :: lex_from LStart s.
Proof.
  revert a. induction w as [|c w IH]; intros a H Hs.
  - cbn [append]. rewrite str_app_nil_r. destruct s as [|c s]; [reflexivity|].
    cbn in Hs. destruct (delim_not_word c Hs) as (Hw & _ & _).
    cbn [lex_from]. cbn [lstep]. rewrite Hw. reflexivity.
  - cbn in H. apply andb_true_iff in H as [Hc Hw].
    cbn [append lex_from]. cbn [lstep]. rewrite Hc. cbn [fst snd].
    cbn [List.app]. rewrite IH by assumption. now rewrite snoc_app.
Qed.

Lemma alpha_not_space c : is_alpha c = true -> is_space c = false.
Proof. destruct c as [[] [] [] [] [] [] [] []]; intros H; try reflexivity; discriminate H. Qed.

Lemma lex_ident w s :
  identifier w = true -> delim s ->
  lex_from LStart (w ++ s) = TWord w :: lex_from LStart s.
Proof.
  destruct w as [|c w]; [discriminate|]. cbn [identifier]. intros H Hs.
  apply andb_true_iff in H as [Hc Hw].
  cbn [append lex_from]. cbn [lstep]. unfold lstart. rewrite (alpha_not_space c Hc), Hc. cbn [fst snd List.app].
  rewrite lex_word_from by assumption. reflexivity.
Qed.

Lemma lex_ident_dot w s :
  identifier w = true ->
  lex_from LStart (w ++ String "." s) = TWord w :: TDot :: lex_from LStart s.
Proof.
  destruct w as [|c w]; [discriminate|]. cbn [identifier]. intros H.
  apply andb_true_iff in H as [Hc Hw].
  cbn [append lex_from]. cbn [lstep]. unfold lstart at 1 2. rewrite (alpha_not_space c Hc), Hc. cbn [fst snd List.app].
  enough (forall a, lex_from (LWord a) (w ++ String "." s) = TWord (a ++ w)%string :: TDot :: lex_from LStart s)
    as X by apply X.
  clear Hc c. induction w as [|c w IH]; intros a.
  - cbn [append]. rewrite str_app_nil_r. reflexivity.
  - cbn in Hw. apply andb_true_iff in Hw as [Hc Hw].
    cbn [append lex_from]. cbn [lstep]. rewrite Hc. cbn [fst snd List.app].
    rewrite IH by assumption. now rewrite snoc_app.
Qed.

Lemma word_not_quote c : is_word c = true -> Ascii.eqb c """" = false.
Proof. destruct c as [[] [] [] [] [] [] [] []]; intros H; try reflexivity; discriminate H. Qed.

Lemma lex_quoted w s :
  identifier w = true ->
  lex_from LStart ("""" ++ w ++ """" ++ s) = TQuoted w :: lex_from LStart s.
Proof.
  intros H.
  assert (Hw : all_chars is_word w = true).
  { destruct w as [|c w]; [discriminate|]. cbn in *. apply andb_true_iff in H as [Hc Hw].
    unfold is_word at 1. now rewrite Hc, Hw. }
  cbn [append lex_from]. cbn [lstep]. unfold lstart at 1 2. cbn [is_space is_alpha is_digit].
  replace (is_alpha """") with false by reflexivity. replace (is_digit """") with false by reflexivity.
  cbn [fst snd List.app].
  enough (forall a, lex_from (LQuoted a) (w ++ String """" s) = TQuoted (a ++ w)%string :: lex_from LStart s)
    as X by apply X.
  clear H. induction w as [|c w IH]; intros a.
  - cbn [append]. rewrite str_app_nil_r. reflexivity.
  - cbn in Hw. apply andb_true_iff in Hw as [Hc Hw].
    cbn [append lex_from]. cbn [lstep]. rewrite (word_not_quote c Hc). cbn [fst snd List.app].
    rewrite IH by assumption. now rewrite snoc_app.
Qed.

(** * Decimal numbers *)

Lemma digits_uint u : all_chars is_digit (NilEmpty.string_of_uint u) = true.
Proof. induction u; cbn; auto. Qed.

Lemma digit_word c : is_digit c = true -> is_word c = true.
Proof. unfold is_word. intros ->. apply orb_true_r. Qed.
Lemma digit_not_alpha c : is_digit c = true -> is_alpha c = false /\ is_space c = false.
Proof. destruct c as [[] [] [] [] [] [] [] []]; intros H; try discriminate H; split; reflexivity. Qed.

Lemma lex_number n s :
  n <> ""%string -> all_chars is_digit n = true -> delim s ->
  lex_from LStart (n ++ s) = TNumber n :: lex_from LStart s.
Proof.
  destruct n as [|c n]; [congruence|]. intros _ H Hs. cbn in H. apply andb_true_iff in H as [Hc Hn].
  destruct (digit_not_alpha c Hc) as [Ha Hsp].
  cbn [append lex_from]. cbn [lstep]. unfold lstart at 1 2. rewrite Ha, Hsp, Hc. cbn [fst snd List.app].
  enough (forall a, lex_from (LNumber a) (n ++ s) = TNumber (a ++ n)%string :: lex_from LStart s) as X by apply X.
  clear c Hc Ha Hsp. induction n as [|c n IH]; intros a.
  - cbn [append]. rewrite str_app_nil_r. destruct s as [|c s]; [reflexivity|].
    cbn in Hs. destruct (delim_not_word c Hs) as (Hw & _ & Hd).
    cbn [lex_from]. cbn [lstep]. rewrite Hw, Hd. reflexivity.
  - cbn in Hn. apply andb_true_iff in Hn as [Hc Hn].
    cbn [append lex_from]. cbn [lstep]. rewrite (digit_word c Hc). cbn [orb fst snd List.app].
    rewrite IH by assumption. now rewrite snoc_app.
Qed.

Lemma string_uint_nonempty u : u <> Decimal.Nil -> NilEmpty.string_of_uint u <> ""%string.
Proof. destruct u; cbn; congruence. Qed.

Definition znum (z : Z) : list tok :=
  match Z.to_int z with
  | Decimal.Pos u => [TNumber (NilEmpty.string_of_uint u)]
  | Decimal.Neg u => [TMinus; TNumber (NilEmpty.string_of_uint u)]
  end.

Lemma to_int_nonnil z : match Z.to_int z with Decimal.Pos u | Decimal.Neg u => u <> Decimal.Nil end.
Proof.
  destruct z; cbn; try congruence; apply DecimalPos.Unsigned.to_uint_nonnil.
Qed.

Lemma lex_dec z s : delim s -> lex_from LStart (dec z ++ s) = znum z ++ lex_from LStart s.
Proof.
  intros Hs. unfold dec, znum. pose proof (to_int_nonnil z) as N.
  destruct (Z.to_int z) as [u|u]; cbn [NilEmpty.string_of_int].
  - rewrite lex_number; [reflexivity|now apply string_uint_nonempty|apply digits_uint|assumption].
  - cbn [append List.app]. cbn [lex_from]. cbn [lstep]. unfold lstart at 1 2.
    replace (is_space "-") with false by reflexivity.
    replace (is_alpha "-") with false by reflexivity.
    replace (is_digit "-") with false by reflexivity. cbn [fst snd List.app].
    rewrite lex_number; [reflexivity|now apply string_uint_nonempty|apply digits_uint|assumption].
Qed.

Lemma number_of_uint u : number_of (NilEmpty.string_of_uint u) = Some (Z.of_uint u).
Proof. unfold number_of. now rewrite NilEmpty.usu. Qed.

Lemma of_to_int z : Z.of_int (Z.to_int z) = z.
Proof. apply DecimalZ.of_to. Qed.

Lemma operand_znum d z f rest :
  p_operand d (S f) (znum z ++ rest) = Some (SLit (VBigInt z), rest).
Proof.
  unfold znum. pose proof (of_to_int z) as E. destruct (Z.to_int z) as [u|u]; cbn [List.app p_operand];
    rewrite number_of_uint; cbn in E; now rewrite E.
Qed.

(** [$n] *)
Lemma lex_dollar z s : (0 < z)%Z -> delim s ->
  lex_from LStart (("$" ++ dec z) ++ s) = TParam z :: lex_from LStart s.
Proof.
  intros Hz Hs. unfold dec. pose proof (to_int_nonnil z) as N. pose proof (of_to_int z) as E.
  destruct z as [|p|p]; try lia. cbn [Z.to_int] in *. set (u := Pos.to_uint p) in *.
  cbn [NilEmpty.string_of_int]. cbn in E.
  assert (X : forall n a, all_chars is_digit n = true ->
            lex_from (LDollar a) (n ++ s) = dollar (a ++ n)%string :: lex_from LStart s).
  { induction n as [|c n IH]; intros a Hn.
    - cbn [append]. rewrite str_app_nil_r. destruct s as [|c s]; [reflexivity|].
      cbn in Hs. destruct (delim_not_word c Hs) as (_ & Hd & _).
      cbn [lex_from]. cbn [lstep]. rewrite Hd. reflexivity.
    - cbn in Hn. apply andb_true_iff in Hn as [Hc Hn].
      cbn [append lex_from]. cbn [lstep]. rewrite Hc. cbn [fst snd List.app].
      rewrite IH by assumption. now rewrite snoc_app. }
  change (("$" ++ NilEmpty.string_of_uint u) ++ s)%string with (String "$" (NilEmpty.string_of_uint u ++ s)).
  cbn [lex_from]. change (lstep LStart "$") with (@nil tok, LDollar "").
  cbn [fst snd List.app]. rewrite (X _ ""%string (digits_uint u)). cbn [append]. f_equal.
  unfold dollar. pose proof (string_uint_nonempty u N) as NE.
  destruct (NilEmpty.string_of_uint u) eqn:Es; [congruence|]. rewrite <- Es, number_of_uint. now rewrite E.
Qed.

(** Fixed pieces of text. *)
Lemma lex_space s : lex_from LStart (" " ++ s) = lex_from LStart s.
Proof. reflexivity. Qed.
