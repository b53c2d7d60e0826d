(** Literals are read back. *)
From Coq Require Import DecimalString.
From Verif Require Import Base SqlVal Adb Sql Query QuerySpec Time Literal LiteralSpec LexProofs.

Lemma after_delim s : after_literal s -> delim s.
Proof. destruct s as [|c s]; [auto|]. cbn. intros [->|[->|[->|[->|[->| ->]]]]]; reflexivity. Qed.

Lemma lex_string s rest : all_chars (fun c => negb (Ascii.eqb c "'")) s = true -> delim rest ->
  lex_from LStart ("'" ++ s ++ "'" ++ rest) = TStr s :: lex_from LStart rest.
Proof.
  intros H Hr. cbn [append lex_from]. change (lstep LStart "'") with (@nil tok, LStr ""). cbn [fst snd List.app].
  enough (G : forall a, lex_from (LStr a) (s ++ String "'" rest) = TStr (a ++ s)%string :: lex_from LStart rest) by apply G.
  induction s as [|c s IH]; intros a.
  - cbn [append lex_from]. change (lstep (LStr a) "'") with (@nil tok, LStrQ a). cbn [fst snd List.app]. rewrite str_app_nil_r.
    destruct rest as [|c rest]; [reflexivity|]. cbn [lex_from lstep]. cbn in Hr.
    destruct (Ascii.eqb_spec c "'") as [->|]; [discriminate Hr|]. reflexivity.
  - cbn in H. apply andb_true_iff in H as [Hc Hs]. cbn [append lex_from lstep]. apply negb_true_iff in Hc. rewrite Hc. cbn [fst snd List.app].
    rewrite (IH Hs). now rewrite snoc_app.
Qed.

Definition unquoted (s : string) : bool := all_chars (fun c => negb (Ascii.eqb c "'")) s.
Lemma unquoted_app a b : unquoted (a ++ b)%string = unquoted a && unquoted b.
Proof. apply all_chars_app. Qed.
Lemma digit_char_unquoted z : (0 <= z < 10)%Z -> negb (Ascii.eqb (digit_char z) "'") = true.
Proof.
  intros H. destruct (Ascii.eqb_spec (digit_char z) "'") as [E|]; [|reflexivity].
  pose proof (digit_of_char z H) as Q. rewrite E in Q. discriminate Q.
Qed.
Lemma pad_unquoted w : forall z, unquoted (pad w z) = true.
Proof.
  induction w as [|w IH]; intros z; [reflexivity|]. cbn [pad]. rewrite unquoted_app, IH. cbn [andb].
  unfold unquoted. cbn [all_chars]. rewrite digit_char_unquoted by (apply Z.mod_pos_bound; lia). reflexivity.
Qed.
Lemma year_unquoted y : unquoted (format_year y) = true.
Proof.
  unfold format_year, year_digits. repeat match goal with |- context [if ?b then _ else _] => destruct b end;
    rewrite ?unquoted_app, ?pad_unquoted; reflexivity.
Qed.
Lemma date_unquoted d : unquoted (format_date d) = true.
Proof. unfold format_date. rewrite !unquoted_app, year_unquoted, !pad_unquoted. reflexivity. Qed.
Lemma timestamp_unquoted t : unquoted (format_timestamp "T" t) = true.
Proof.
  unfold format_timestamp, format_time, format_nano. rewrite !unquoted_app, date_unquoted, !pad_unquoted.
  repeat match goal with |- context [if ?b then _ else _] => destruct b end; rewrite ?unquoted_app, ?pad_unquoted; reflexivity.
Qed.

Lemma hex_digit_val n : (0 <= n < 16)%Z -> hex_val (hex_digit n) = Some n /\ negb (Ascii.eqb (hex_digit n) "'") = true.
Proof.
  intros H. assert (n = 0 \/ n = 1 \/ n = 2 \/ n = 3 \/ n = 4 \/ n = 5 \/ n = 6 \/ n = 7 \/ n = 8 \/ n = 9
    \/ n = 10 \/ n = 11 \/ n = 12 \/ n = 13 \/ n = 14 \/ n = 15)%Z as C by lia.
  repeat (destruct C as [->|C]; [split; reflexivity|]). subst. split; reflexivity.
Qed.
Lemma hex_roundtrip b : hex_value (hex_upper b) = Some b /\ unquoted (hex_upper b) = true.
Proof.
  induction b as [|c b [IH IH']]; [split; reflexivity|]. cbn [hex_upper]. set (n := Z.of_N (N_of_ascii c)).
  assert (B : (0 <= n < 256)%Z) by (unfold n; pose proof (N_ascii_bounded c); lia).
  pose proof (Z_div_mod_eq_full n 16). pose proof (Z.mod_pos_bound n 16).
  destruct (hex_digit_val (n / 16)) as [E1 U1]; [lia|]. destruct (hex_digit_val (n mod 16)) as [E2 U2]; [lia|].
  split.
  - cbn [hex_value]. rewrite E1, E2, IH. do 2 f_equal. replace (16 * (n / 16) + n mod 16)%Z with n by lia.
    unfold n. rewrite N2Z.id. apply ascii_N_embedding.
  - unfold unquoted in *. cbn [all_chars]. now rewrite U1, U2, IH'.
Qed.

Lemma lex_numeral n rest : numeral n -> delim rest -> lex_from LStart (n ++ rest) = TNumber n :: lex_from LStart rest.
Proof.
  intros (c & r & -> & Hc & Hr) Hd. destruct (digit_not_alpha c Hc) as [Ha Hsp].
  cbn [append lex_from]. cbn [lstep]. unfold lstart at 1 2. rewrite Ha, Hsp, Hc. cbn [fst snd List.app].
  enough (G : forall a, lex_from (LNumber a) (r ++ rest) = TNumber (a ++ r)%string :: lex_from LStart rest) by apply G.
  clear c Hc Ha Hsp. induction r as [|c r IH]; intros a.
  - cbn [append]. rewrite str_app_nil_r. destruct rest as [|c rest]; [reflexivity|].
    cbn in Hd. destruct (delim_not_word c Hd) as (Hw & _ & Hdot). cbn [lex_from]. cbn [lstep]. rewrite Hw, Hdot. reflexivity.
  - cbn in Hr. apply andb_true_iff in Hr as [Hc Hr]. cbn [append lex_from]. cbn [lstep].
    assert (X : is_word c || Ascii.eqb c "." = true).
    { apply orb_true_iff in Hc as [Hc|Hc]; [rewrite (digit_word c Hc); reflexivity|rewrite Hc; apply orb_true_r]. }
    rewrite X. cbn [fst snd List.app]. rewrite IH by assumption. now rewrite snoc_app.
Qed.

Section Main.
Variables (read : bool -> string -> f64) (show : f64 -> string).
Hypothesis show_ok : display_ok read show.

Lemma literal_int z : denotes read (znum z) (VInt z).
Proof.
  unfold znum. pose proof (of_to_int z) as E. destruct (Z.to_int z) as [u|u]; cbn in E; rewrite <- E; constructor; apply number_of_uint.
Qed.

Theorem literal_reads v : readable_literal v ->
  exists s, sql_literal_value show v = Ok s /\ literal_for read s v.
Proof.
  intros R. unfold literal_for, lex. destruct v as [|b|i|i|r|s|b|j|d|t|ty da]; cbn [readable_literal] in R; try contradiction.
  - eexists. split; [reflexivity|]. exists [TWord "NULL"]. split; [now constructor|]. intros rest Hr.
    apply (lex_ident "NULL"); [reflexivity|now apply after_delim].
  - destruct b; (eexists; split; [reflexivity|]).
    + exists [TWord "true"]. split; [now constructor|]. intros rest Hr. apply (lex_ident "true"); [reflexivity|now apply after_delim].
    + exists [TWord "false"]. split; [now constructor|]. intros rest Hr. apply (lex_ident "false"); [reflexivity|now apply after_delim].
  - eexists. split; [reflexivity|]. exists (znum i). split; [apply literal_int|]. intros rest Hr. apply lex_dec. now apply after_delim.
  - eexists. split; [reflexivity|]. exists (znum i). split; [apply den_bigint, literal_int|]. intros rest Hr. apply lex_dec. now apply after_delim.
  - destruct (proj1 show_ok r R) as (neg & n & E & N & Rd). exists (show r). split; [reflexivity|]. rewrite E, <- Rd. destruct neg.
    + exists [TMinus; TNumber n]. split; [constructor|]. intros rest Hr. cbn [append]. cbn [lex_from].
      change (lstep LStart "-") with ([TMinus], LStart). cbn [fst snd List.app]. f_equal. apply lex_numeral; [assumption|now apply after_delim].
    + exists [TNumber n]. split; [constructor|]. intros rest Hr. cbn [append]. apply lex_numeral; [assumption|now apply after_delim].
  - eexists. split; [reflexivity|]. exists [TStr s]. split; [constructor|]. intros rest Hr. rewrite <- !str_app_assoc.
    apply lex_string; [assumption|now apply after_delim].
  - eexists. split; [reflexivity|]. destruct (hex_roundtrip b) as [H U]. exists [TWord "x"; TStr (hex_upper b)].
    split; [now constructor|]. intros rest Hr. rewrite <- !str_app_assoc.
    change ("x'" ++ hex_upper b ++ "'" ++ rest)%string with (String "x" ("'" ++ hex_upper b ++ "'" ++ rest)).
    cbn [lex_from]. change (lstep LStart "x") with (@nil tok, LWord "x"). cbn [fst snd List.app].
    change (lex_from (LWord "x") ("'" ++ hex_upper b ++ "'" ++ rest))
      with (TWord "x" :: lex_from LStart ("'" ++ hex_upper b ++ "'" ++ rest)).
    f_equal. apply lex_string; [assumption|now apply after_delim].
  - eexists. split; [reflexivity|]. exists [TStr (format_timestamp "T" t)]. split.
    + apply (den_timestamp _ _ "T"); [now right|]. apply timestamp_roundtrip; [reflexivity|assumption].
    + intros rest Hr. rewrite <- !str_app_assoc. apply lex_string; [apply timestamp_unquoted|now apply after_delim].
Qed.
End Main.

(** A date is read as an empty string, numbers and signs, and an empty string. *)
Lemma date_literal_tokens read d : valid_date d = true -> forall show s, sql_literal_value show (VDate d) = Ok s -> ~ literal_for read s (VDate d).
Proof.
  intros V show s E (ts & Dn & L). cbn in E. injection E as <-. specialize (L ""%string I). rewrite str_app_nil_r in L.
  cbn [append lex lex_from] in L. unfold lex in L. cbn [lex_from] in L.
  change (lstep LStart "'") with (@nil tok, LStr "") in L. cbn [fst snd List.app] in L.
  change (lstep (LStr "") "'") with (@nil tok, LStrQ "") in L. cbn [fst snd List.app] in L.
  rewrite <- !str_app_assoc in L. rewrite app_nil_r in L.
  assert (H : exists c r, (format_date d ++ "'" ++ "'")%string = String c r /\ Ascii.eqb c "'" = false).
  { pose proof (date_unquoted d) as U. unfold format_date, format_year, year_digits in *.
    destruct (valid_date_bounds d V) as (Y & _).
    destruct (Z.ltb_spec (d_year d) 0); [do 2 eexists; split; reflexivity|].
    destruct (Z.ltb_spec 9999 (d_year d)); [do 2 eexists; split; reflexivity|].
    destruct (Z.ltb_spec (d_year d) 10000); [|lia].
    rewrite <- !str_app_assoc. destruct (pad_nosign 3 (d_year d) ("-" ++ pad 2 (d_month d) ++ "-" ++ pad 2 (d_day d) ++ "'" ++ "'")) as (c & r & Ec & Dc).
    { change (10 ^ Z.of_nat 4)%Z with 10000%Z. lia. }
    exists c, r. split; [exact Ec|]. destruct (Ascii.eqb_spec c "'") as [->|]; [elim Dc; reflexivity|reflexivity]. }
  destruct H as (c & r & Ec & Hc). rewrite Ec in L. cbn [lex_from lstep] in L. rewrite Hc in L. cbn [emit fst List.app] in L.
  rewrite <- L in Dn. inversion Dn as [| | | | | | | | | | |s0 d0 P E1 E2|]. discriminate P.
Qed.

(** A text with a quote is not read back. *)
Lemma string_state_bound s : forall a st, st = LStr a \/ st = LStrQ a -> forall t rest, lex_from st s = TStr t :: rest ->
  (String.length t <= String.length a + String.length s)%nat.
Proof.
  induction s as [|c s IH]; intros a st [->| ->] t rest H.
  - discriminate H.
  - cbn in H. injection H as <- _. cbn. lia.
  - cbn [lex_from lstep] in H. destruct (Ascii.eqb c "'"); cbn [fst snd List.app] in H.
    + pose proof (IH a _ (or_intror eq_refl) t rest H). cbn. lia.
    + pose proof (IH (snoc a c) _ (or_introl eq_refl) t rest H). unfold snoc in *. rewrite str_app_length in *. cbn in *. lia.
  - cbn [lex_from lstep] in H. destruct (Ascii.eqb c "'"); cbn [emit fst snd List.app] in H.
    + pose proof (IH (snoc a c) _ (or_introl eq_refl) t rest H). unfold snoc in *. rewrite str_app_length in *. cbn in *. lia.
    + injection H as <- _. cbn. lia.
Qed.
Lemma text_quote_short s : unquoted s = false -> forall a t rest, lex_from (LStr a) (s ++ "'") = TStr t :: rest ->
  (String.length t < String.length a + String.length s)%nat.
Proof.
  induction s as [|c s IH]; intros U a t rest H; [discriminate U|].
  cbn [append lex_from lstep] in H. destruct (Ascii.eqb_spec c "'") as [->|N].
  - cbn [fst snd List.app] in H.
    assert (G : forall s a t rest, lex_from (LStrQ a) (s ++ "'") = TStr t :: rest -> (String.length t <= String.length a + String.length s)%nat).
    { clear. intros s a t rest H. destruct s as [|c s]; cbn [append lex_from lstep] in H.
      - change (Ascii.eqb "'" "'") with true in H. cbn in H. discriminate H.
      - destruct (Ascii.eqb c "'"); cbn [emit fst snd List.app] in H.
        + pose proof (string_state_bound _ _ _ (or_introl eq_refl) _ _ H) as B. unfold snoc in B. rewrite !str_app_length in B. cbn in B. cbn.
          enough (String.length t <> String.length a + 1 + (String.length s + 1)) by lia. intros El.
          (* the closing quote is never part of the text *)
          clear B. revert El. enough (forall s a t rest, lex_from (LStr a) (s ++ "'") = TStr t :: rest -> (String.length t <= String.length a + String.length s)%nat) as Q
            by (specialize (Q _ _ _ _ H); unfold snoc in Q; rewrite str_app_length in Q; cbn in Q; lia).
          clear. enough (forall s, (forall a t rest, lex_from (LStr a) (s ++ "'") = TStr t :: rest -> (String.length t <= String.length a + String.length s)%nat)
            /\ (forall a t rest, lex_from (LStrQ a) (s ++ "'") = TStr t :: rest -> (String.length t <= String.length a + String.length s)%nat)) as Q
            by (intros s; apply Q).
          induction s as [|c s [I1 I2]]; split; intros a t rest H; cbn [append lex_from lstep] in H.
          * change (Ascii.eqb "'" "'") with true in H. cbn in H. injection H as <- _. cbn. lia.
          * change (Ascii.eqb "'" "'") with true in H. cbn in H. discriminate H.
          * destruct (Ascii.eqb c "'"); cbn [emit fst snd List.app] in H; [apply I2 in H|apply I1 in H; unfold snoc in H; rewrite str_app_length in H]; cbn in *; lia.
          * destruct (Ascii.eqb c "'"); cbn [emit fst snd List.app] in H; [apply I1 in H; unfold snoc in H; rewrite str_app_length in H; cbn in *; lia|].
            injection H as <- _. cbn. lia.
        + injection H as <- _. cbn. lia. }
    apply G in H. cbn. lia.
  - cbn [fst snd List.app] in H. unfold unquoted in U. cbn [all_chars] in U.
    destruct (Ascii.eqb_spec c "'"); [congruence|]. cbn in U. pose proof (IH U (snoc a c) t rest H) as B.
    unfold snoc in B. rewrite str_app_length in B. cbn in *. lia.
Qed.
Theorem text_literal_exact read show s : (exists l, sql_literal_value show (VText s) = Ok l /\ literal_for read l (VText s))
  <-> all_chars (fun c => negb (Ascii.eqb c "'")) s = true.
Proof.
  split.
  - intros (l & E & ts & Dn & L). cbn in E. injection E as <-. change (unquoted s = true). destruct (unquoted s) eqn:U; [reflexivity|exfalso].
    specialize (L ""%string I). rewrite str_app_nil_r in L. unfold lex in L. cbn [append lex_from] in L.
    change (lstep LStart "'") with (@nil tok, LStr "") in L. cbn [fst snd List.app] in L. rewrite app_nil_r in L.
    assert (T : ts = [TStr s]) by (inversion Dn; reflexivity). rewrite T in L. apply (text_quote_short s U) in L. cbn in L. lia.
  - intros U. eexists. split; [reflexivity|]. exists [TStr s]. split; [constructor|]. intros rest Hr. unfold lex. rewrite <- !str_app_assoc.
    apply lex_string; [assumption|now apply after_delim].
Qed.
