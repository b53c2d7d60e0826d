(** JSON text: what is written reads back, and a text that was read stays read when more
    follows. *)
From Coq Require Import DecimalString DecimalFacts DecimalPos DecimalN.
From Verif Require Import Base SqlVal Query Json JsonForm JsonSpec LexProofs.
From Verif Require ConnSpec ConnStrProofs.
Import ConnSpec(skip_ws, expect_char, read_string, json_ws, dquote, json_string).

(** * More text after a number *)

Definition no_digit (s : string) : Prop := starts_digit s = false.
Definition stops (s : string) : Prop :=
  match s with
  | EmptyString => True
  | String c _ => digit c = None /\ Ascii.eqb c "." = false /\ is_exp c = false
  end.
Lemma stops_no_digit s : stops s -> no_digit s.
Proof. destruct s as [|c s]; [reflexivity|]. intros (H & _). unfold no_digit, starts_digit. now rewrite H. Qed.

Lemma count_more p : forall k n r q, count_digits k p = (n, r) -> (r = "" -> no_digit q) ->
  count_digits k (p ++ q) = (n, r ++ q)%string.
Proof.
  induction p as [|c p IH]; intros k n r q H Hq; cbn [count_digits append] in *.
  - injection H as <- <-. cbn. specialize (Hq eq_refl). unfold no_digit, starts_digit in Hq.
    destruct q as [|d q]; [reflexivity|]. cbn. destruct (digit d); [discriminate|reflexivity].
  - destruct (digit c); [now apply IH|]. injection H as <- <-. reflexivity.
Qed.
Lemma all_more p : forall k n r q, all_digits k p = (n, r) -> (r = "" -> no_digit q) ->
  all_digits k (p ++ q) = (n, r ++ q)%string.
Proof.
  induction p as [|c p IH]; intros k n r q H Hq; cbn [all_digits append] in *.
  - injection H as <- <-. cbn. specialize (Hq eq_refl). unfold no_digit, starts_digit in Hq.
    destruct q as [|d q]; [reflexivity|]. cbn. destruct (digit d); [discriminate|reflexivity].
  - destruct (digit c); [now apply IH|]. injection H as <- <-. reflexivity.
Qed.
Lemma take_more p : forall a k a' k' o r q, take_digits a k p = (a', k', o, r) -> (r = "" -> no_digit q) ->
  take_digits a k (p ++ q) = (a', k', o, (r ++ q)%string).
Proof.
  induction p as [|c p IH]; intros a k a' k' o r q H Hq; cbn [take_digits append] in *.
  - injection H as <- <- <- <-. cbn. specialize (Hq eq_refl). unfold no_digit, starts_digit in Hq.
    destruct q as [|d q]; [reflexivity|]. cbn. destruct (digit d); [discriminate|reflexivity].
  - destruct (digit c) as [x|].
    + destruct (Z.ltb u64_max (a * 10 + x)); [|now apply IH]. injection H as <- <- <- <-. reflexivity.
    + injection H as <- <- <- <-. reflexivity.
Qed.

Lemma with_rest_more o s v r q : with_rest o s = Some (v, r) -> with_rest o (s ++ q) = Some (v, r ++ q)%string.
Proof. destruct o; cbn; [|discriminate]. intros [= <- <-]. reflexivity. Qed.
Lemma with_rest_inv o s v r : with_rest o s = Some (v, r) -> r = s.
Proof. destruct o; cbn; [|discriminate]. now intros [= <- <-]. Qed.

Lemma from_exponent_more pos sig st neg p v r q :
  from_exponent pos sig st neg p = Some (v, r) -> (r = "" -> stops q) ->
  from_exponent pos sig st neg (p ++ q) = Some (v, r ++ q)%string.
Proof.
  intros H Hq. destruct p as [|c p]; [discriminate|]. cbn [from_exponent append] in *.
  destruct (digit c) as [x|]; [|discriminate]. destruct (all_digits x p) as [e rest] eqn:E.
  pose proof (with_rest_inv _ _ _ _ H). subst rest.
  rewrite (all_more _ _ _ _ q E) by (intros X; apply stops_no_digit, Hq, X).
  now apply with_rest_more.
Qed.
Lemma read_exponent_more pos sig st p v r q :
  read_exponent pos sig st p = Some (v, r) -> (r = "" -> stops q) ->
  read_exponent pos sig st (p ++ q) = Some (v, r ++ q)%string.
Proof.
  intros H Hq. destruct p as [|c p]; [discriminate|]. cbn [read_exponent append] in *.
  destruct (Ascii.eqb c "+"); [now apply from_exponent_more|].
  destruct (Ascii.eqb c "-"); [now apply from_exponent_more|].
  now apply (from_exponent_more _ _ _ _ (String c p)).
Qed.
Lemma after_digits_more pos sig e p v r q :
  after_digits pos sig e p = Some (v, r) -> (r = "" -> stops q) ->
  after_digits pos sig e (p ++ q) = Some (v, r ++ q)%string.
Proof.
  intros H Hq. destruct p as [|c p]; cbn [after_digits append] in *.
  - pose proof (with_rest_inv _ _ _ _ H). subst r. specialize (Hq eq_refl).
    destruct q as [|d q]; [exact H|]. cbn. destruct Hq as (_ & _ & ->).
    now apply (with_rest_more _ _ _ _ (String d q)) in H.
  - destruct (is_exp c); [now apply read_exponent_more|]. now apply (with_rest_more _ (String c p)).
Qed.
Lemma read_decimal_more pos sig b p v r q :
  read_decimal pos sig b p = Some (v, r) -> (r = "" -> stops q) ->
  read_decimal pos sig b (p ++ q) = Some (v, r ++ q)%string.
Proof.
  intros H Hq. unfold read_decimal in *.
  destruct (take_digits sig 0 p) as [[[s' k] o] r1] eqn:E. destruct o.
  - destruct (count_digits 0 r1) as [n r2] eqn:E2.
    assert (N1 : r1 <> "").
    { clear -E. revert E. generalize 0%Z as k0. revert sig.
      induction p as [|c p IH]; intros sig k0 E; cbn in E; [discriminate|].
      destruct (digit c) as [x|]; [|discriminate].
      destruct (Z.ltb u64_max (sig * 10 + x)); [injection E as _ _ <-; discriminate|].
      now apply IH in E. }
    rewrite (take_more _ _ _ _ _ _ _ q E) by congruence.
    assert (Hr : r2 = "" -> stops q).
    { intros ->. cbn in H. pose proof (with_rest_inv _ _ _ _ H). subst. now apply Hq. }
    rewrite (count_more _ _ _ _ q E2) by (intros X; apply stops_no_digit, Hr, X).
    now apply after_digits_more.
  - destruct (Z.eqb k 0) eqn:Ek; [discriminate|].
    assert (Hr : r1 = "" -> stops q).
    { intros ->. cbn in H. pose proof (with_rest_inv _ _ _ _ H). subst. now apply Hq. }
    rewrite (take_more _ _ _ _ _ _ _ q E) by (intros X; apply stops_no_digit, Hr, X).
    rewrite Ek. now apply after_digits_more.
Qed.
Lemma read_rest_more pos sig p v r q :
  read_rest pos sig p = Some (v, r) -> (r = "" -> stops q) ->
  read_rest pos sig (p ++ q) = Some (v, r ++ q)%string.
Proof.
  intros H Hq. destruct p as [|c p]; cbn [read_rest append] in *.
  - injection H as <- <-. specialize (Hq eq_refl). destruct q as [|d q]; [reflexivity|]. cbn.
    destruct Hq as (_ & -> & ->). reflexivity.
  - destruct (Ascii.eqb c "."); [now apply read_decimal_more|].
    destruct (is_exp c); [now apply read_exponent_more|]. injection H as <- <-. reflexivity.
Qed.
Lemma read_long_more pos sig p v r q :
  read_long pos sig p = Some (v, r) -> (r = "" -> stops q) ->
  read_long pos sig (p ++ q) = Some (v, r ++ q)%string.
Proof.
  intros H Hq. unfold read_long in *. destruct (count_digits 0 p) as [k r1] eqn:E.
  assert (Hr : r1 = "" -> stops q).
  { intros ->. cbn in H. pose proof (with_rest_inv _ _ _ _ H). subst. now apply Hq. }
  rewrite (count_more _ _ _ _ q E) by (intros X; apply stops_no_digit, Hr, X).
  destruct r1 as [|c r1]; cbn [append].
  - pose proof (after_digits_more pos sig k "" v r q H Hq) as X.
    specialize (Hr eq_refl). destruct q as [|d q]; [exact X|]. destruct Hr as (D1 & D2 & D3).
    rewrite D2. exact X.
  - destruct (Ascii.eqb c "."); [now apply read_decimal_more|].
    now apply (after_digits_more pos sig k (String c r1)).
Qed.
Lemma take_rest_empty a k p a' k' r q v pos :
  take_digits a k p = (a', k', false, r) -> read_rest pos a' r = Some (v, q) -> r = "" -> q = "".
Proof. intros _ H ->. cbn in H. now injection H as <- <-. Qed.
Lemma read_unsigned_more pos p v r q :
  read_unsigned pos p = Some (v, r) -> (r = "" -> stops q) ->
  read_unsigned pos (p ++ q) = Some (v, r ++ q)%string.
Proof.
  intros H Hq. destruct p as [|c p]; [discriminate|]. cbn [read_unsigned append] in *.
  destruct (digit c) as [x|]; [|discriminate]. destruct (Z.eqb x 0) eqn:Ex.
  - destruct (starts_digit p) eqn:Ed; [discriminate|].
    assert (Hp : p = "" -> stops q).
    { intros ->. cbn in H. injection H as _ <-. now apply Hq. }
    assert (starts_digit (p ++ q) = false) as ->.
    { destruct p as [|d p]; [|exact Ed]. now apply stops_no_digit, Hp. }
    now apply read_rest_more.
  - destruct (take_digits x 0 p) as [[[s' k] o] r1] eqn:E. destruct o.
    + assert (N1 : r1 <> "").
      { clear -E. revert E. generalize 0%Z as k0. revert x.
        induction p as [|c p IH]; intros sig k0 E; cbn in E; [discriminate|].
        destruct (digit c) as [y|]; [|discriminate].
        destruct (Z.ltb u64_max (sig * 10 + y)); [injection E as _ _ <-; discriminate|].
        now apply IH in E. }
      rewrite (take_more _ _ _ _ _ _ _ q E) by congruence. now apply read_long_more.
    + assert (Hr : r1 = "" -> stops q).
      { intros ->. cbn in H. injection H as _ <-. now apply Hq. }
      rewrite (take_more _ _ _ _ _ _ _ q E) by (intros X; apply stops_no_digit, Hr, X).
      now apply read_rest_more.
Qed.
Lemma read_number_more p v r q :
  read_number p = Some (v, r) -> (r = "" -> stops q) -> read_number (p ++ q) = Some (v, r ++ q)%string.
Proof.
  intros H Hq. destruct p as [|c p]; [discriminate|]. cbn [read_number append] in *.
  destruct (Ascii.eqb c "-"); [now apply read_unsigned_more|].
  now apply (read_unsigned_more true (String c p)).
Qed.

(** * More text after a value *)

Definition starts (s : string) (c : ascii) : Prop := exists r, s = String c r.

Section More.
  Variables value value' : string -> option (json * string).
  (** A value read from [p] with something left is read from [p ++ q]. *)
  Hypothesis more : forall p v r q, r <> "" -> value p = Some (v, r) -> value' (p ++ q) = Some (v, r ++ q)%string.

  Lemma elements_more n : forall m p l r q, (n <= m)%nat -> read_elements value n p = Some (l, r) ->
    read_elements value' m (p ++ q) = Some (l, r ++ q)%string.
  Proof.
    induction n as [|n IH]; intros m p l r q Hm H; [discriminate|]. destruct m as [|m]; [lia|].
    cbn [read_elements] in *. destruct (value p) as [[v r1]|] eqn:E; [|discriminate].
    destruct (skip_ws r1) as [|c r2] eqn:Es; [discriminate|].
    assert (r1 <> "") by (intros ->; discriminate).
    rewrite (more _ _ _ q H0 E), (ConnStrProofs.skip_ws_more _ q _ _ Es).
    destruct (Ascii.eqb c ",").
    - destruct (read_elements value n r2) as [[l1 q1]|] eqn:E2; [|discriminate]. injection H as <- <-.
      now rewrite (IH m _ _ _ q ltac:(lia) E2).
    - destruct (Ascii.eqb c "]"); [|discriminate]. injection H as <- <-. reflexivity.
  Qed.
  Lemma members_more n : forall m p l r q, (n <= m)%nat -> read_members value n p = Some (l, r) ->
    read_members value' m (p ++ q) = Some (l, r ++ q)%string.
  Proof.
    induction n as [|n IH]; intros m p l r q Hm H; [discriminate|]. destruct m as [|m]; [lia|].
    cbn [read_members] in *. destruct (expect_char dquote p) as [s1|] eqn:E1; [|discriminate].
    rewrite (ConnStrProofs.expect_more _ _ q _ E1).
    destruct (read_string s1) as [[k s2]|] eqn:E2; [|discriminate].
    rewrite (ConnStrProofs.read_string_more _ _ _ q E2).
    destruct (expect_char ":" s2) as [s3|] eqn:E3; [|discriminate].
    rewrite (ConnStrProofs.expect_more _ _ q _ E3).
    destruct (value s3) as [[v r1]|] eqn:E; [|discriminate].
    destruct (skip_ws r1) as [|c r2] eqn:Es; [discriminate|].
    assert (r1 <> "") by (intros ->; discriminate).
    rewrite (more _ _ _ q H0 E), (ConnStrProofs.skip_ws_more _ q _ _ Es).
    destruct (Ascii.eqb c ",").
    - destruct (read_members value n r2) as [[l1 q1]|] eqn:E4; [|discriminate]. injection H as <- <-.
      now rewrite (IH m _ _ _ q ltac:(lia) E4).
    - destruct (Ascii.eqb c "}"); [|discriminate]. injection H as <- <-. reflexivity.
  Qed.
End More.

Lemma strip_more a s r q : ConnSpec.strip a s = Some r -> ConnSpec.strip a (s ++ q) = Some (r ++ q)%string.
Proof.
  intros H. apply ConnStrProofs.strip_iff in H. subst s. apply ConnStrProofs.strip_iff.
  apply ConnStrProofs.sapp_assoc.
Qed.
Lemma expect_other_char c s d r : skip_ws s = String d r -> expect_char c s = (if Ascii.eqb c d then Some r else None).
Proof. unfold expect_char. now intros ->. Qed.
Lemma read_value_eq d s : read_value d s =
  match skip_ws s with
  | EmptyString => None
  | String c r =>
      if Ascii.eqb c "n" then option_map (fun q => (JNull, q)) (ConnSpec.strip "ull" r)
      else if Ascii.eqb c "t" then option_map (fun q => (JBool true, q)) (ConnSpec.strip "rue" r)
      else if Ascii.eqb c "f" then option_map (fun q => (JBool false, q)) (ConnSpec.strip "alse" r)
      else if Ascii.eqb c dquote then option_map (fun p => (JStr (fst p), snd p)) (read_string r)
      else if Ascii.eqb c "[" then
        match d with
        | S (S _ as d) =>
            match expect_char "]" r with
            | Some q => Some (JArr [], q)
            | None => option_map (fun p => (JArr (fst p), snd p))
                        (read_elements (read_value d) (String.length r) r)
            end
        | _ => None
        end
      else if Ascii.eqb c "{" then
        match d with
        | S (S _ as d) =>
            match expect_char "}" r with
            | Some q => Some (JObj [], q)
            | None => option_map (fun p => (JObj (fst p), snd p))
                        (read_members (read_value d) (String.length r) r)
            end
        | _ => None
        end
      else read_number (String c r)
  end.
Proof. destruct d; reflexivity. Qed.

(** Only a number can go on. *)
Definition is_number (v : json) : bool := match v with JInt _ | JReal _ => true | _ => false end.
Lemma from_parts_num pos sig e v : from_parts pos sig e = Some v -> is_number v = true.
Proof. unfold from_parts. destruct (scale_loop 4 _ e); [|discriminate]. now intros [= <-]. Qed.
Lemma with_parts_num pos sig e s v r : with_rest (from_parts pos sig e) s = Some (v, r) -> is_number v = true.
Proof.
  destruct (from_parts pos sig e) eqn:E; cbn; [|discriminate]. intros [= <- <-]. eapply from_parts_num, E.
Qed.
Lemma from_exponent_num pos sig e neg s v r : from_exponent pos sig e neg s = Some (v, r) -> is_number v = true.
Proof.
  destruct s as [|c s]; [discriminate|]. cbn. destruct (digit c); [|discriminate].
  destruct (all_digits z s). apply with_parts_num.
Qed.
Lemma read_exponent_num pos sig e s v r : read_exponent pos sig e s = Some (v, r) -> is_number v = true.
Proof.
  destruct s as [|c s]; [discriminate|]. cbn [read_exponent].
  destruct (Ascii.eqb c "+"); [|destruct (Ascii.eqb c "-")]; apply from_exponent_num.
Qed.
Lemma after_digits_num pos sig e s v r : after_digits pos sig e s = Some (v, r) -> is_number v = true.
Proof.
  destruct s as [|c s]; [apply with_parts_num|]. cbn [after_digits].
  destruct (is_exp c); [apply read_exponent_num|apply with_parts_num].
Qed.
Lemma read_decimal_num pos sig e s v r : read_decimal pos sig e s = Some (v, r) -> is_number v = true.
Proof.
  unfold read_decimal. destruct (take_digits sig 0 s) as [[[a k] []] q].
  - destruct (count_digits 0 q). apply after_digits_num.
  - destruct (Z.eqb k 0); [discriminate|apply after_digits_num].
Qed.
Lemma read_rest_num pos sig s v r : read_rest pos sig s = Some (v, r) -> is_number v = true.
Proof.
  assert (is_number (integer pos sig) = true) as I.
  { unfold integer. destruct pos; [reflexivity|]. now destruct (Z.eqb sig 0 || _). }
  destruct s as [|c s]; cbn [read_rest]; [now intros [= <- <-]|].
  destruct (Ascii.eqb c "."); [apply read_decimal_num|]. destruct (is_exp c); [apply read_exponent_num|].
  now intros [= <- <-].
Qed.
Lemma read_long_num pos sig s v r : read_long pos sig s = Some (v, r) -> is_number v = true.
Proof.
  unfold read_long. destruct (count_digits 0 s) as [k [|c q]]; [apply after_digits_num|].
  destruct (Ascii.eqb c "."); [apply read_decimal_num|apply after_digits_num].
Qed.
Lemma read_number_num s v r : read_number s = Some (v, r) -> is_number v = true.
Proof.
  assert (U : forall pos s, read_unsigned pos s = Some (v, r) -> is_number v = true).
  { intros pos [|c t]; [discriminate|]. cbn. destruct (digit c) as [x|]; [|discriminate].
    destruct (Z.eqb x 0); [destruct (starts_digit t); [discriminate|apply read_rest_num]|].
    destruct (take_digits x 0 t) as [[[a k] []] q]; [apply read_long_num|apply read_rest_num]. }
  destruct s as [|c s]; [discriminate|]. cbn [read_number]. destruct (Ascii.eqb c "-"); apply U.
Qed.

Lemma read_value_some d s x : read_value d s = Some x -> exists c r, skip_ws s = String c r.
Proof. rewrite read_value_eq. destruct (skip_ws s); [discriminate|]. eauto. Qed.
Lemma elements_some f n s x : read_elements f n s = Some x -> f s <> None.
Proof. destruct n; [discriminate|]. cbn. destruct (f s) as [[]|]; discriminate. Qed.
Lemma members_some f n s x : read_members f n s = Some x -> exists c r, skip_ws s = String c r.
Proof.
  destruct n; [discriminate|]. cbn. unfold expect_char. destruct (skip_ws s); [discriminate|]. eauto.
Qed.
Lemma expect_none_more c p q d r : skip_ws p = String d r -> expect_char c p = None -> expect_char c (p ++ q) = None.
Proof.
  intros Hs. rewrite (expect_other_char _ _ _ _ Hs).
  rewrite (expect_other_char _ _ _ _ (ConnStrProofs.skip_ws_more _ q _ _ Hs)).
  now destruct (Ascii.eqb c d).
Qed.

Lemma read_value_more d : forall p v r q, (r = "" -> is_number v = true -> stops q) ->
  read_value d p = Some (v, r) -> read_value d (p ++ q) = Some (v, r ++ q)%string.
Proof.
  induction d as [|d IH]; intros p v r q Hq H; rewrite read_value_eq in *.
  all: destruct (skip_ws p) as [|c p1] eqn:Es; [discriminate|].
  all: rewrite (ConnStrProofs.skip_ws_more _ q _ _ Es).
  all: destruct (Ascii.eqb c "n");
    [destruct (ConnSpec.strip "ull" p1) as [x|] eqn:E; [|discriminate]; injection H as <- <-;
     now rewrite (strip_more _ _ _ q E)|].
  all: destruct (Ascii.eqb c "t");
    [destruct (ConnSpec.strip "rue" p1) as [x|] eqn:E; [|discriminate]; injection H as <- <-;
     now rewrite (strip_more _ _ _ q E)|].
  all: destruct (Ascii.eqb c "f");
    [destruct (ConnSpec.strip "alse" p1) as [x|] eqn:E; [|discriminate]; injection H as <- <-;
     now rewrite (strip_more _ _ _ q E)|].
  all: destruct (Ascii.eqb c dquote);
    [destruct (read_string p1) as [[x y]|] eqn:E; [|discriminate]; injection H as <- <-;
     now rewrite (ConnStrProofs.read_string_more _ _ _ q E)|].
  - destruct (Ascii.eqb c "["); [discriminate|]. destruct (Ascii.eqb c "{"); [discriminate|].
    apply (read_number_more (String c p1)); [exact H|]. intros X. apply Hq; [exact X|].
    eapply read_number_num, H.
  - destruct (Ascii.eqb c "[").
    { destruct d as [|d0]; [discriminate|]. set (dd := S d0) in *.
      destruct (expect_char "]" p1) as [q1|] eqn:Ee.
      - injection H as <- <-. now rewrite (ConnStrProofs.expect_more _ _ q _ Ee).
      - destruct (read_elements (read_value dd) (String.length p1) p1) as [[l r1]|] eqn:E; [|discriminate].
        injection H as <- <-.
        destruct (read_value dd p1) as [x|] eqn:Ev; [|now apply elements_some in E].
        destruct (read_value_some _ _ _ Ev) as (c2 & r2 & Hs).
        rewrite (expect_none_more _ _ q _ _ Hs Ee).
        erewrite (elements_more (read_value dd) (read_value dd)); [reflexivity| | |exact E].
        + intros p0 v0 r0 q0 Hn Hv. apply IH; [intros X; congruence|exact Hv].
        + rewrite ConnStrProofs.sapp_len. lia. }
    destruct (Ascii.eqb c "{").
    { destruct d as [|d0]; [discriminate|]. set (dd := S d0) in *.
      destruct (expect_char "}" p1) as [q1|] eqn:Ee.
      - injection H as <- <-. now rewrite (ConnStrProofs.expect_more _ _ q _ Ee).
      - destruct (read_members (read_value dd) (String.length p1) p1) as [[l r1]|] eqn:E; [|discriminate].
        injection H as <- <-.
        destruct (members_some _ _ _ _ E) as (c2 & r2 & Hs).
        rewrite (expect_none_more _ _ q _ _ Hs Ee).
        erewrite (members_more (read_value dd) (read_value dd)); [reflexivity| | |exact E].
        + intros p0 v0 r0 q0 Hn Hv. apply IH; [intros X; congruence|exact Hv].
        + rewrite ConnStrProofs.sapp_len. lia. }
    apply (read_number_more (String c p1)); [exact H|]. intros X. apply Hq; [exact X|].
    eapply read_number_num, H.
Qed.

(** * Reading what was written *)

Lemma json_ind' (P : json -> Prop) :
  P JNull -> (forall b, P (JBool b)) -> (forall z, P (JInt z)) -> (forall r, P (JReal r)) ->
  (forall s, P (JStr s)) -> (forall l, Forall P l -> P (JArr l)) ->
  (forall l, Forall (fun m => P (snd m)) l -> P (JObj l)) -> forall v, P v.
Proof.
  intros H1 H2 H3 H4 H5 H6 H7. fix go 1. intros v.
  destruct v as [|b|z|r|s|l|l]; [exact H1|apply H2|apply H3|apply H4|apply H5|apply H6|apply H7].
  - induction l as [|x l IH]; constructor; [apply go|exact IH].
  - induction l as [|x l IH]; constructor; [apply go|exact IH].
Qed.

(** ** Integers *)

Fixpoint uval (acc : Z) (u : Decimal.uint) : Z :=
  match u with
  | Decimal.Nil => acc
  | Decimal.D0 u => uval (acc * 10) u
  | Decimal.D1 u => uval (acc * 10 + 1) u
  | Decimal.D2 u => uval (acc * 10 + 2) u
  | Decimal.D3 u => uval (acc * 10 + 3) u
  | Decimal.D4 u => uval (acc * 10 + 4) u
  | Decimal.D5 u => uval (acc * 10 + 5) u
  | Decimal.D6 u => uval (acc * 10 + 6) u
  | Decimal.D7 u => uval (acc * 10 + 7) u
  | Decimal.D8 u => uval (acc * 10 + 8) u
  | Decimal.D9 u => uval (acc * 10 + 9) u
  end%Z.
Lemma uval_pos u : forall p, Z.pos (Pos.of_uint_acc u p) = uval (Z.pos p) u.
Proof.
  induction u; intros p; cbn [Pos.of_uint_acc uval]; [reflexivity|..]; rewrite IHu; f_equal; lia.
Qed.
Lemma uval_of u : Z.of_N (Pos.of_uint u) = uval 0 u.
Proof.
  induction u; cbn [Pos.of_uint uval]; [reflexivity|exact IHu|..]; cbn [Z.of_N]; rewrite uval_pos; reflexivity.
Qed.
Lemma uval_ge u : forall a, (0 <= a)%Z -> (a <= uval a u)%Z.
Proof.
  induction u; intros a Ha; cbn [uval]; [lia|..];
    (etransitivity; [|apply IHu]; lia).
Qed.
Lemma take_uint u : forall a k s, (0 <= a)%Z -> (uval a u <= u64_max)%Z -> no_digit s ->
  exists k', take_digits a k (NilEmpty.string_of_uint u ++ s) = (uval a u, k', false, s).
Proof.
  assert (Nd : forall a k s, no_digit s -> take_digits a k s = (a, k, false, s)).
  { intros a k [|c s] H; [reflexivity|]. unfold no_digit, starts_digit in H. cbn.
    destruct (digit c); [discriminate|reflexivity]. }
  induction u; intros a k s Ha Hu Hs.
  1: { exists k. now apply Nd. }
  all: cbn [uval NilEmpty.string_of_uint append take_digits] in *.
  all: match goal with |- context [digit ?c] => let x := eval vm_compute in (digit c) in change (digit c) with x end; cbv iota beta.
  1: replace (a * 10 + 0)%Z with (a * 10)%Z by lia.
  all: match goal with |- context [Z.ltb u64_max ?e] =>
         pose proof (uval_ge u e ltac:(lia)) as G; replace (Z.ltb u64_max e) with false by (symmetry; apply Z.ltb_ge; lia) end.
  all: apply IHu; [lia|exact Hu|exact Hs].
Qed.
Lemma to_uint_head p : match Pos.to_uint p with Decimal.Nil | Decimal.D0 _ => False | _ => True end.
Proof.
  pose proof (DecimalPos.Unsigned.of_to p) as E.
  pose proof (DecimalPos.Unsigned.to_uint_nonnil p) as N.
  pose proof (DecimalPos.Unsigned.to_uint_nonzero p) as Z0.
  pose proof (DecimalPos.Unsigned.to_of (Pos.to_uint p)) as T.
  rewrite E in T. cbn [N.to_uint] in T.
  destruct (Pos.to_uint p) as [|u| | | | | | | | |] eqn:Eu; try exact I; [congruence|].
  unfold Decimal.unorm in T. cbn [Decimal.nzhead] in T.
  destruct (Decimal.nzhead u) eqn:En; try discriminate T; [now apply Z0|].
  now apply nzhead_nonzero in En.
Qed.
Lemma digits_read pos p s : (Z.pos p <= u64_max)%Z -> no_digit s ->
  read_unsigned pos (NilEmpty.string_of_uint (Pos.to_uint p) ++ s) = read_rest pos (Z.pos p) s.
Proof.
  intros Hp Hs. pose proof (to_uint_head p) as H0.
  pose proof (DecimalPos.Unsigned.of_to p) as E. pose proof (uval_of (Pos.to_uint p)) as V. rewrite E in V.
  cbn [Z.of_N] in V. rewrite V in *. clear E V.
  destruct (Pos.to_uint p) as [|u|u|u|u|u|u|u|u|u|u]; try contradiction.
  all: cbn [uval NilEmpty.string_of_uint append read_unsigned] in *.
  all: match goal with |- context [digit ?c] => let x := eval vm_compute in (digit c) in change (digit c) with x end; cbv iota beta.
  all: match goal with |- context [Z.eqb ?x 0] => change (Z.eqb x 0) with false; cbv iota;
    destruct (take_uint u x 0 s ltac:(lia) Hp Hs) as [k ->] end; reflexivity.
Qed.

Lemma dec_read z s : int_ok z -> stops s -> read_number (dec z ++ s) = Some (JInt z, s).
Proof.
  intros [H1 H2] Hs. unfold dec.
  assert (R : forall pos sig, read_rest pos sig s = Some (integer pos sig, s)).
  { intros pos sig. destruct s as [|c s]; [reflexivity|]. cbn. destruct Hs as (_ & -> & ->). reflexivity. }
  destruct z as [|p|p].
  - change (NilEmpty.string_of_int (Z.to_int 0)) with "0". cbn [append read_number].
    change (Ascii.eqb "0" "-") with false. cbv iota. cbn [read_unsigned].
    change (digit "0") with (Some 0%Z). cbv iota beta. change (Z.eqb 0 0) with true. cbv iota.
    rewrite (stops_no_digit _ Hs). apply R.
  - cbn [Z.to_int NilEmpty.string_of_int].
    pose proof (to_uint_head p) as H0.
    pose proof (digits_read true p s H2 (stops_no_digit _ Hs)) as D. rewrite R in D.
    destruct (Pos.to_uint p); try contradiction; exact D.
  - cbn [Z.to_int NilEmpty.string_of_int append]. cbn [read_number].
    change (Ascii.eqb "-" "-") with true. cbv iota.
    assert (Z.pos p <= 2 ^ 63)%Z by lia.
    rewrite digits_read; [|unfold u64_max; lia|apply stops_no_digit, Hs].
    rewrite R. unfold integer. replace (Z.eqb (Z.pos p) 0) with false by reflexivity.
    replace (Z.ltb (2 ^ 63) (Z.pos p)) with false by (symmetry; apply Z.ltb_ge; lia). reflexivity.
Qed.

(** ** Layout *)

Lemma skip_indent n s : skip_ws (indent n ++ s) = skip_ws s.
Proof. induction n as [|n IH]; [reflexivity|]. exact IH. Qed.
Lemma skip_gap lay s : skip_ws (gap lay ++ s) = skip_ws s.
Proof. destruct lay as [n|]; [|reflexivity]. cbn [gap]. rewrite ConnStrProofs.sapp_assoc. exact (skip_indent n s). Qed.
Lemma expect_gap c lay s : expect_char c (gap lay ++ s) = expect_char c s.
Proof. unfold expect_char. now rewrite skip_gap. Qed.
Lemma value_skip d s t : skip_ws s = skip_ws t -> read_value d s = read_value d t.
Proof. intros H. now rewrite !read_value_eq, H. Qed.
Lemma value_gap d lay s : read_value d (gap lay ++ s) = read_value d s.
Proof. apply value_skip, skip_gap. Qed.
Lemma gap_stops lay c s : digit c = None -> Ascii.eqb c "." = false -> is_exp c = false ->
  stops (gap lay ++ String c s).
Proof. intros H1 H2 H3. destruct lay; cbn; auto. Qed.

Section Written.
  Variable show : f64 -> string.
  Notation write := (write show).

  Notation real_ok := (real_ok show).
  Notation ok := (ok show).

  Definition elems (lay : option nat) : list json -> string :=
    fix go l :=
      match l with
      | [] => ""
      | [x] => gap lay ++ write lay x
      | x :: r => gap lay ++ write lay x ++ "," ++ go r
      end%string.
  Definition mems (lay : option nat) (out : option nat) : list (string * json) -> string :=
    fix go l :=
      match l with
      | [] => ""
      | [(k, x)] => gap lay ++ json_string k ++ colon out ++ write lay x
      | (k, x) :: r => gap lay ++ json_string k ++ colon out ++ write lay x ++ "," ++ go r
      end%string.
  Lemma elems_cons lay x y l : elems lay (x :: y :: l) = (gap lay ++ write lay x ++ "," ++ elems lay (y :: l))%string.
  Proof. reflexivity. Qed.
  Lemma mems_cons lay out k x y l : mems lay out ((k, x) :: y :: l) =
    (gap lay ++ json_string k ++ colon out ++ write lay x ++ "," ++ mems lay out (y :: l))%string.
  Proof. reflexivity. Qed.
  Lemma write_arr lay x l : write lay (JArr (x :: l)) = ("[" ++ elems (inner lay) (x :: l) ++ gap lay ++ "]")%string.
  Proof. reflexivity. Qed.
  Lemma write_obj lay x l : write lay (JObj (x :: l)) = ("{" ++ mems (inner lay) lay (x :: l) ++ gap lay ++ "}")%string.
  Proof. reflexivity. Qed.

  (** The first character of a value. *)
  Lemma digit_char c x : digit c = Some x -> json_ws c = false /\ Ascii.eqb c "]" = false /\ Ascii.eqb c "}" = false
    /\ Ascii.eqb c "n" = false /\ Ascii.eqb c "t" = false /\ Ascii.eqb c "f" = false
    /\ Ascii.eqb c dquote = false /\ Ascii.eqb c "[" = false /\ Ascii.eqb c "{" = false.
  Proof. destruct c as [[] [] [] [] [] [] [] []]; cbv; intros [=]; repeat split. Qed.
  Lemma number_first p v r : read_number p = Some (v, r) -> exists c q, p = String c q
    /\ json_ws c = false /\ Ascii.eqb c "]" = false
    /\ Ascii.eqb c "n" = false /\ Ascii.eqb c "t" = false /\ Ascii.eqb c "f" = false
    /\ Ascii.eqb c dquote = false /\ Ascii.eqb c "[" = false /\ Ascii.eqb c "{" = false.
  Proof.
    destruct p as [|c p]; [discriminate|]. cbn [read_number]. intros H. exists c, p. split; [reflexivity|].
    destruct (Ascii.eqb_spec c "-") as [->|_]; [repeat split|].
    cbn [read_unsigned] in H. destruct (digit c) as [x|] eqn:E; [|discriminate].
    destruct (digit_char _ _ E) as (A1 & A2 & A3 & A4 & A5 & A6 & A7 & A8 & A9). auto 10.
  Qed.
  Lemma read_value_number d p v r : read_number p = Some (v, r) -> read_value d p = Some (v, r).
  Proof.
    intros H. destruct (number_first _ _ _ H) as (c & q & -> & W & _ & N & T & F & D & A & O).
    rewrite read_value_eq. cbn [ConnSpec.skip_ws]. rewrite W, N, T, F, D, A, O. exact H.
  Qed.
  Lemma number_written d s v t : (forall u, stops u -> read_number (s ++ u) = Some (v, u)) -> stops t ->
    read_value d (s ++ t) = Some (v, t).
  Proof. intros H Ht. apply read_value_number, H, Ht. Qed.

  Lemma write_first lay v : ok v -> exists c q, write lay v = String c q /\ json_ws c = false /\ Ascii.eqb c "]" = false.
  Proof.
    intros H. destruct v as [|[]|z|r|s|l|l].
    1-3: do 2 eexists; repeat split.
    - cbn [Json.write]. destruct (number_first (dec z) _ _ (eq_trans (f_equal read_number (eq_sym (ConnStrProofs.sapp_nil _))) (dec_read z "" H I)))
        as (c & q & E & W & B & _). exists c, q. auto.
    - destruct H as [Hf Hr]. cbn [Json.write]. rewrite Hf.
      destruct (number_first _ _ _ Hr) as (c & q & E & W & B & _). exists c, q. auto.
    - do 2 eexists; repeat split.
    - destruct l; do 2 eexists; repeat split.
    - destruct l; do 2 eexists; repeat split.
  Qed.
  Lemma expect_not_close lay v t : ok v -> expect_char "]" (write lay v ++ t) = None.
  Proof.
    intros H. destruct (write_first lay v H) as (c & q & -> & W & B). unfold expect_char.
    cbn [append ConnSpec.skip_ws]. rewrite W. now rewrite Ascii.eqb_sym, B.
  Qed.

  Lemma comma_stops t : stops ("," ++ t).
  Proof. repeat split. Qed.

  Definition reads (d : nat) (v : json) : Prop :=
    forall lay t, stops t -> read_value d (write lay v ++ t) = Some (v, t).

  Lemma elems_read d lay out l : l <> [] -> Forall (reads d) l -> forall n t, (length l <= n)%nat ->
    read_elements (read_value d) n (elems lay l ++ gap out ++ String "]" t) = Some (l, t).
  Proof.
    induction l as [|x l IH]; intros Hn Hf n t Hlen; [congruence|].
    inversion Hf as [|? ? Hx Hl]; subst. destruct n as [|n]; [cbn in Hlen; lia|]. cbn [read_elements].
    destruct l as [|y l].
    - change (elems lay [x]) with (gap lay ++ write lay x)%string. rewrite ConnStrProofs.sapp_assoc, value_gap.
      rewrite Hx by (apply gap_stops; reflexivity).
      rewrite skip_gap. cbn [ConnSpec.skip_ws]. reflexivity.
    - rewrite elems_cons, !ConnStrProofs.sapp_assoc, value_gap.
      rewrite Hx by apply comma_stops. cbn [append ConnSpec.skip_ws].
      change (json_ws ",") with false. cbv iota. change (Ascii.eqb "," ",") with true. cbv iota.
      rewrite IH; [reflexivity|discriminate|exact Hl|cbn in *; lia].
  Qed.
  Lemma read_key k t : read_string (ConnSpec.json_escaped k ++ String dquote t) = Some (k, t).
  Proof. apply ConnStrProofs.read_escaped. Qed.
  Lemma json_string_app k t : (json_string k ++ t)%string = String dquote (ConnSpec.json_escaped k ++ String dquote t).
  Proof. unfold json_string. cbn [append]. now rewrite ConnStrProofs.sapp_assoc. Qed.
  Lemma expect_colon out t : expect_char ":" (colon out ++ t) = Some (match out with None => t | Some _ => String " " t end).
  Proof. destruct out; reflexivity. Qed.
  Lemma value_space d t : read_value d (String " " t) = read_value d t.
  Proof. apply value_skip. reflexivity. Qed.
  Lemma mems_read d lay out l : l <> [] -> Forall (fun m => reads d (snd m)) l -> forall n t, (length l <= n)%nat ->
    read_members (read_value d) n (mems lay out l ++ gap out ++ String "}" t) = Some (l, t).
  Proof.
    induction l as [|[k x] l IH]; intros Hn Hf n t Hlen; [congruence|].
    inversion Hf as [|? ? Hx Hl]; subst. cbn [snd] in Hx. destruct n as [|n]; [cbn in Hlen; lia|]. cbn [read_members].
    destruct l as [|y l].
    - change (mems lay out [(k, x)]) with (gap lay ++ json_string k ++ colon out ++ write lay x)%string.
      rewrite !ConnStrProofs.sapp_assoc, expect_gap, json_string_app.
      rewrite ConnStrProofs.expect_here by reflexivity. rewrite read_key, expect_colon.
      assert (E : forall u, stops u -> read_value d (match out with None => (write lay x ++ u)%string
         | Some _ => String " " (write lay x ++ u)%string end) = Some (x, u)).
      { intros u Hu. destruct out; [rewrite value_space|]; now apply Hx. }
      rewrite E by (apply gap_stops; reflexivity). rewrite skip_gap. reflexivity.
    - rewrite mems_cons, !ConnStrProofs.sapp_assoc, expect_gap, json_string_app.
      rewrite ConnStrProofs.expect_here by reflexivity. rewrite read_key, expect_colon.
      assert (E : forall u, stops u -> read_value d (match out with None => (write lay x ++ u)%string
         | Some _ => String " " (write lay x ++ u)%string end) = Some (x, u)).
      { intros u Hu. destruct out; [rewrite value_space|]; now apply Hx. }
      rewrite E by apply comma_stops. cbn [append ConnSpec.skip_ws].
      change (json_ws ",") with false. cbv iota. change (Ascii.eqb "," ",") with true. cbv iota.
      rewrite IH; [reflexivity|discriminate|exact Hl|cbn in *; lia].
  Qed.

  (** Every element takes at least one character. *)
  Lemma elems_len lay l : Forall ok l -> (length l <= String.length (elems lay l))%nat.
  Proof.
    induction l as [|x l IH]; intros Hf; [cbn; lia|]. inversion Hf as [|? ? Hx Hl]; subst.
    destruct (write_first lay x Hx) as (c & q & E & _).
    destruct l as [|y l].
    - change (elems lay [x]) with (gap lay ++ write lay x)%string.
      rewrite E, ConnStrProofs.sapp_len. cbn. lia.
    - rewrite elems_cons, E, !ConnStrProofs.sapp_len. specialize (IH Hl). cbn [length String.length append] in *. lia.
  Qed.
  Lemma mems_len lay out l : (length l <= String.length (mems lay out l))%nat.
  Proof.
    induction l as [|[k x] l IH]; [cbn; lia|]. destruct l as [|y l].
    - change (mems lay out [(k, x)]) with (gap lay ++ json_string k ++ colon out ++ write lay x)%string.
      rewrite !ConnStrProofs.sapp_len. unfold json_string. cbn. lia.
    - rewrite mems_cons, !ConnStrProofs.sapp_len. unfold json_string. cbn [length String.length append] in *. lia.
  Qed.

  Lemma ok_arr l : ok (JArr l) -> Forall ok l.
  Proof. cbn. induction l; cbn; intros; constructor; tauto. Qed.
  Lemma ok_obj l : ok (JObj l) -> Forall (fun m => ok (snd m)) l.
  Proof. cbn. induction l; cbn; intros; constructor; tauto. Qed.
  Lemma depth_arr d l : (jdepth (JArr l) <= S d)%nat -> Forall (fun x => (jdepth x <= d)%nat) l.
  Proof. cbn. induction l; cbn; intros; constructor; [lia|apply IHl; lia]. Qed.
  Lemma depth_obj d l : (jdepth (JObj l) <= S d)%nat -> Forall (fun m => (jdepth (snd m) <= d)%nat) l.
  Proof. cbn. induction l; cbn; intros; constructor; [lia|apply IHl; lia]. Qed.

  Theorem written_reads v : ok v -> forall d, (jdepth v < d)%nat -> reads d v.
  Proof.
    induction v as [|b|z|r|s|l IH|l IH] using json_ind'; intros Ho d Hd lay t Ht.
    - rewrite read_value_eq. reflexivity.
    - destruct b; rewrite read_value_eq; reflexivity.
    - cbn [Json.write]. apply number_written; [|exact Ht]. intros u Hu. now apply dec_read.
    - destruct Ho as [Hf Hr]. cbn [Json.write]. rewrite Hf. apply number_written; [|exact Ht].
      intros u Hu. apply (read_number_more _ _ _ u Hr). auto.
    - cbn [Json.write]. rewrite json_string_app, read_value_eq.
      cbn [ConnSpec.skip_ws]. change (json_ws dquote) with false. cbv iota.
      change (Ascii.eqb dquote dquote) with true. cbv iota.
      rewrite read_key. reflexivity.
    - destruct d as [|d]; [lia|]. destruct l as [|x l].
      { cbn in Hd. destruct d as [|d]; [lia|]. rewrite read_value_eq. reflexivity. }
      assert (Hd' : (jdepth (JArr (x :: l)) <= S (d - 1))%nat) by lia.
      apply depth_arr in Hd'. apply ok_arr in Ho. pose proof (elems_len (inner lay) _ Ho) as Hlen.
      assert (Hr : Forall (reads d) (x :: l)).
      { rewrite Forall_forall in *. intros y Hy. apply IH; auto. specialize (Hd' y Hy). cbn in Hd. lia. }
      destruct d as [|d0]; [cbn in Hd; lia|]. set (d := S d0) in *.
      rewrite write_arr, !ConnStrProofs.sapp_assoc, read_value_eq. cbn [append ConnSpec.skip_ws].
      change (json_ws "[") with false. cbv iota.
      change (Ascii.eqb "[" "n") with false. change (Ascii.eqb "[" "t") with false. change (Ascii.eqb "[" "f") with false.
      change (Ascii.eqb "[" dquote) with false. change (Ascii.eqb "[" "[") with true. cbv iota.
      set (body := (elems (inner lay) (x :: l) ++ gap lay ++ String "]" t)%string).
      assert (expect_char "]" body = None) as ->.
      { unfold body. inversion Ho as [|? ? Ox Ol]; subst. destruct l as [|y l].
        - change (elems (inner lay) [x]) with (gap (inner lay) ++ write (inner lay) x)%string.
          rewrite ConnStrProofs.sapp_assoc, expect_gap. now apply expect_not_close.
        - rewrite elems_cons, !ConnStrProofs.sapp_assoc, expect_gap. now apply expect_not_close. }
      unfold d. unfold body. rewrite elems_read; [reflexivity|discriminate|exact Hr|].
      rewrite ConnStrProofs.sapp_len. lia.
    - destruct d as [|d]; [lia|]. destruct l as [|x l].
      { cbn in Hd. destruct d as [|d]; [lia|]. rewrite read_value_eq. reflexivity. }
      assert (Hd' : (jdepth (JObj (x :: l)) <= S (d - 1))%nat) by lia.
      apply depth_obj in Hd'. apply ok_obj in Ho. pose proof (mems_len (inner lay) lay (x :: l)) as Hlen.
      assert (Hr : Forall (fun m => reads d (snd m)) (x :: l)).
      { rewrite Forall_forall in *. intros y Hy. apply IH; auto. specialize (Hd' y Hy). cbn in Hd. lia. }
      destruct d as [|d0]; [cbn in Hd; lia|]. set (d := S d0) in *.
      rewrite write_obj, !ConnStrProofs.sapp_assoc, read_value_eq. cbn [append ConnSpec.skip_ws].
      change (json_ws "{") with false. cbv iota.
      change (Ascii.eqb "{" "n") with false. change (Ascii.eqb "{" "t") with false. change (Ascii.eqb "{" "f") with false.
      change (Ascii.eqb "{" dquote) with false. change (Ascii.eqb "{" "[") with false.
      change (Ascii.eqb "{" "{") with true. cbv iota.
      set (body := (mems (inner lay) lay (x :: l) ++ gap lay ++ String "}" t)%string).
      assert (expect_char "}" body = None) as ->.
      { unfold body. destruct x as [k x]. destruct l as [|y l].
        - change (mems (inner lay) lay [(k, x)]) with (gap (inner lay) ++ json_string k ++ colon lay ++ write (inner lay) x)%string.
          rewrite !ConnStrProofs.sapp_assoc, expect_gap, json_string_app. reflexivity.
        - rewrite mems_cons, !ConnStrProofs.sapp_assoc, expect_gap, json_string_app. reflexivity. }
      unfold d. unfold body. rewrite mems_read; [reflexivity|discriminate|exact Hr|].
      rewrite ConnStrProofs.sapp_len. lia.
  Qed.

  (** A written value, with or without a newline after it. *)
  Lemma text_reads lay v t : ok v -> (jdepth v < 128)%nat -> t = "" \/ t = ConnSpec.newline ->
    from_text (write lay v ++ t) = Ok v.
  Proof.
    intros Ho Hd Ht. unfold from_text. rewrite (written_reads v Ho 128 Hd lay t).
    - destruct Ht as [-> | ->]; reflexivity.
    - destruct Ht as [-> | ->]; [exact I|]. repeat split.
  Qed.
End Written.
