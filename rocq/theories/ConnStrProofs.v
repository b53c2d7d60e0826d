(** Proofs about connection strings. *)
From Verif Require Import Base ConnSpec ConnStrSpec.
Local Open Scope string_scope.

Lemma sapp_assoc (a b c : string) : (a ++ b) ++ c = a ++ b ++ c.
Proof. induction a; cbn; congruence. Qed.
Lemma sapp_nil (a : string) : a ++ "" = a.
Proof. induction a; cbn; congruence. Qed.
Lemma sapp_len (a b : string) : String.length (a ++ b) = String.length a + String.length b.
Proof. induction a; cbn; congruence. Qed.
Lemma sapp_cancel (a b c : string) : a ++ b = a ++ c -> b = c.
Proof. induction a; cbn; [auto|]. intros [=]. auto. Qed.

Lemma one_char c a d b : String c "" = a ++ String d b -> c = d.
Proof. destruct a as [|x a]; cbn; intros [= H1 H2]; [assumption|]. destruct a; discriminate. Qed.

(** * Text *)
Lemma strip_iff p s r : strip p s = Some r <-> s = p ++ r.
Proof.
  revert s. induction p as [|a p IH]; intros s; cbn.
  - split; [intros [=]; auto|congruence].
  - destruct s as [|b s]; [split; discriminate|]. destruct (Ascii.eqb_spec a b) as [->|N].
    + rewrite IH. split; [congruence|intros [=]; auto].
    + split; [discriminate|intros [=]; congruence].
Qed.
Lemma contains_unfold p s : contains p s =
  match strip p s with Some _ => true | None => match s with EmptyString => false | String _ r => contains p r end end.
Proof. destruct s; reflexivity. Qed.
Lemma contains_iff p s : contains p s = true <-> exists a b, s = a ++ p ++ b.
Proof.
  induction s as [|c s IH]; rewrite contains_unfold.
  - destruct (strip p "") as [r|] eqn:E.
    + split; [intros _; exists "", r; apply strip_iff in E; exact E|reflexivity].
    + split; [discriminate|]. intros (a & b & H). destruct a; cbn in H; [|discriminate].
      apply strip_iff in H. congruence.
  - destruct (strip p (String c s)) as [r|] eqn:E.
    + split; [intros _; exists "", r; apply strip_iff in E; exact E|reflexivity].
    + rewrite IH. split.
      * intros (a & b & ->). exists (String c a), b. reflexivity.
      * intros (a & b & H). destruct a as [|d a]; cbn in H; [apply strip_iff in H; congruence|].
        injection H as -> H. eauto.
Qed.
Lemma contains_false p s : contains p s = false <-> ~ exists a b, s = a ++ p ++ b.
Proof. rewrite <- contains_iff. destruct (contains p s); split; congruence. Qed.
Lemma replace_unfold p q s : replace_first p q s =
  match strip p s with Some rest => q ++ rest
  | None => match s with EmptyString => "" | String c r => String c (replace_first p q r) end end.
Proof. destruct s; reflexivity. Qed.
Lemma replace_none p q s : contains p s = false -> replace_first p q s = s.
Proof.
  induction s as [|c s IH]; rewrite contains_unfold, replace_unfold.
  - destruct (strip p ""); [discriminate|reflexivity].
  - destruct (strip p (String c s)); [discriminate|]. intros H. rewrite IH; auto.
Qed.
Lemma replace_some p q s : contains p s = true ->
  exists a b, s = a ++ p ++ b /\ replace_first p q s = a ++ q ++ b /\
    forall a' b', s = a' ++ p ++ b' -> String.length a <= String.length a'.
Proof.
  induction s as [|c s IH]; rewrite contains_unfold, replace_unfold.
  - destruct (strip p "") as [r|] eqn:E; [|discriminate]. intros _. exists "", r.
    apply strip_iff in E. split; [assumption|]. split; [reflexivity|]. cbn. lia.
  - destruct (strip p (String c s)) as [r|] eqn:E.
    + intros _. exists "", r. apply strip_iff in E. split; [assumption|]. split; [reflexivity|]. cbn. lia.
    + intros H. destruct (IH H) as (a & b & H1 & H2 & H3). exists (String c a), b.
      split; [cbn; congruence|]. split; [cbn; congruence|]. intros a' b' H4.
      destruct a' as [|d a']; cbn in H4; [apply strip_iff in H4; congruence|].
      injection H4 as -> H4. cbn. apply H3 in H4. lia.
Qed.
Lemma replace_prefix p q r : replace_first p q (p ++ r) = q ++ r.
Proof. rewrite replace_unfold. rewrite (proj2 (strip_iff p (p ++ r) r) eq_refl). reflexivity. Qed.

(** * Schemes *)
Fixpoint mem_char (c : ascii) (s : string) : bool :=
  match s with EmptyString => false | String d r => Ascii.eqb c d || mem_char c r end.
Lemma mem_char_iff c s : mem_char c s = true <-> exists a b, s = a ++ String c b.
Proof.
  induction s as [|d s IH]; cbn.
  - split; [discriminate|]. intros ([|] & b & H); discriminate.
  - rewrite orb_true_iff, IH. split.
    + intros [H|(a & b & ->)]; [apply Ascii.eqb_eq in H; subst; exists "", s; reflexivity|].
      exists (String d a), b. reflexivity.
    + intros ([|x a] & b & H); cbn in H; injection H as -> H; [left; apply Ascii.eqb_refl|].
      right. eauto.
Qed.
Lemma letter_mem c : letter c = mem_char c letters.
Proof. destruct c as [[] [] [] [] [] [] [] []]; reflexivity. Qed.
Lemma scheme_mem c : scheme_char c = mem_char c scheme_letters.
Proof. destruct c as [[] [] [] [] [] [] [] []]; reflexivity. Qed.
Lemma letter_scheme c : letter c = true -> scheme_char c = true.
Proof. unfold scheme_char. intros ->. reflexivity. Qed.
Lemma colon_not_scheme : scheme_char ":" = false.
Proof. reflexivity. Qed.

Lemma scan_iff s x rest :
  scan_scheme s = Some (x, rest) <->
  exists r, s = r ++ ":" ++ rest /\ made_of scheme_letters r /\ lower r = x.
Proof.
  revert x. induction s as [|c s IH]; intros x; cbn [scan_scheme].
  - split; [discriminate|]. intros ([|] & H & _); discriminate.
  - destruct (Ascii.eqb_spec c ":") as [->|N].
    + split.
      * intros [= <- <-]. exists "". cbn. auto.
      * intros ([|d r] & H & M & L); cbn in H.
        -- injection H as ->. cbn in L. subst x. reflexivity.
        -- injection H as <- ->. cbn [made_of] in M. destruct M as [M _].
           apply mem_char_iff in M. rewrite <- scheme_mem, colon_not_scheme in M. discriminate.
    + destruct (scheme_char c) eqn:Ec.
      * destruct (scan_scheme s) as [[y rest']|] eqn:Es.
        -- split.
           ++ intros [= <- <-]. destruct (proj1 (IH y) eq_refl) as (r & -> & M & L).
              exists (String c r). cbn [made_of lower append]. split; [reflexivity|]. rewrite L.
              split; [|reflexivity]. split; [|assumption]. apply mem_char_iff. rewrite <- scheme_mem. assumption.
           ++ intros ([|d r] & H & M & L); cbn in H; injection H as H1 H2.
              { congruence. }
              subst d. cbn [made_of] in M. destruct M as [_ M].
              pose proof (proj2 (IH (lower r)) (ex_intro _ r (conj H2 (conj M eq_refl)))) as Hs.
              injection Hs as Hy Hr. cbn in L. congruence.
        -- split; [discriminate|]. intros ([|d r] & H & M & L); cbn in H; injection H as H1 H2; [congruence|].
           cbn [made_of] in M. destruct M as [_ M].
           pose proof (proj2 (IH (lower r)) (ex_intro _ r (conj H2 (conj M eq_refl)))) as Hs. discriminate.
      * split; [discriminate|]. intros ([|d r] & H & M & L); cbn in H; injection H as H1 H2; [congruence|].
        subst d. cbn [made_of] in M. destruct M as [M _]. apply mem_char_iff in M.
        rewrite <- scheme_mem in M. congruence.
Qed.

Lemma url_scheme_iff s x rest : url_scheme s = Some (x, rest) <-> has_scheme s x rest.
Proof.
  unfold url_scheme, has_scheme. destruct (url_input s) as [|c r] eqn:E.
  - split; [discriminate|]. intros (c & r & H & _). destruct r; discriminate.
  - destruct (letter c) eqn:El.
    + rewrite scan_iff. split.
      * intros ([|d q] & H & M & L); cbn [append] in H.
        -- injection H as -> _. discriminate.
        -- injection H as <- H. exists c, q. cbn [made_of] in M |- *. destruct M as [M1 M2].
           split; [cbn [append]; congruence|]. split; [|auto]. split; [|exact I].
           apply mem_char_iff. rewrite <- letter_mem. assumption.
      * intros (d & q & H & M & M2 & L). exists (String d q). cbn [append] in H. injection H as -> H.
        split; [cbn [append]; congruence|]. split; [|assumption]. cbn [made_of]. split; [|assumption].
        apply mem_char_iff. rewrite <- scheme_mem. apply letter_scheme. assumption.
    + split; [discriminate|]. intros (d & q & H & M & _). cbn [append] in H. injection H as -> _.
      cbn [made_of] in M. destruct M as [M _]. apply mem_char_iff in M. rewrite <- letter_mem in M. congruence.
Qed.

(** * Key-value strings *)
Lemma is_space_iff c : is_space c = true <-> In c space_chars.
Proof.
  unfold is_space. rewrite existsb_exists. split.
  - intros (x & H & E). apply String.eqb_eq in E. subst. assumption.
  - intros H. exists c. split; [assumption|apply String.eqb_refl].
Qed.

Lemma eq_ws_skip c r : In c space_chars -> eq_after_ws (c ++ r) = eq_after_ws r.
Proof.
  intros H. cbn in H. repeat (destruct H as [<-|H]; [destruct r; reflexivity|]). contradiction.
Qed.

Lemma eq_ws_iff s : eq_after_ws s = true <-> exists gap post, s = gap ++ "=" ++ post /\ blank gap.
Proof.
  split.
  - remember (String.length s) as n eqn:En. revert s En.
    induction n as [n IH] using lt_wf_ind. intros s En H.
    destruct s as [|a r1]; [discriminate|]. cbn [eq_after_ws] in H.
    destruct (Ascii.eqb_spec a "=") as [->|N].
    { exists "", r1. split; [reflexivity|constructor]. }
    destruct (is_space (String a "")) eqn:E1.
    { destruct (IH (String.length r1)) with (s := r1) as (gap & post & -> & B); auto; [cbn in En; lia|].
      exists (String a "" ++ gap), post. split; [reflexivity|]. constructor; [apply is_space_iff; assumption|assumption]. }
    destruct r1 as [|b r2]; [discriminate|].
    destruct (is_space (String a (String b ""))) eqn:E2.
    { destruct (IH (String.length r2)) with (s := r2) as (gap & post & -> & B); auto; [cbn in En; lia|].
      exists (String a (String b "") ++ gap), post. split; [reflexivity|]. constructor; [apply is_space_iff; assumption|assumption]. }
    destruct r2 as [|c r3]; [discriminate|].
    destruct (is_space (String a (String b (String c "")))) eqn:E3; [|discriminate].
    destruct (IH (String.length r3)) with (s := r3) as (gap & post & -> & B); auto; [cbn in En; lia|].
    exists (String a (String b (String c "")) ++ gap), post. split; [reflexivity|].
    constructor; [apply is_space_iff; assumption|assumption].
  - intros (gap & post & -> & B). induction B as [|c r Hc B IH]; [reflexivity|].
    rewrite sapp_assoc, eq_ws_skip; assumption.
Qed.

Lemma key_at_iff s : key_at s = true <->
  exists key gap post, s = key ++ gap ++ "=" ++ post /\ In key pg_keys /\ blank gap.
Proof.
  unfold key_at. rewrite existsb_exists. split.
  - intros (k & Hk & H). destruct (strip k s) as [r|] eqn:E; [|discriminate]. apply strip_iff in E. subst s.
    apply eq_ws_iff in H as (gap & post & -> & B). exists k, gap, post. auto.
  - intros (k & gap & post & -> & Hk & B). exists k. split; [assumption|].
    rewrite (proj2 (strip_iff k _ _) eq_refl). apply eq_ws_iff. eauto.
Qed.

Lemma key_unfold s : key_somewhere s = (key_at s || match s with EmptyString => false | String _ r => key_somewhere r end)%bool.
Proof. destruct s; reflexivity. Qed.
Lemma key_somewhere_iff s : key_somewhere s = true <-> names_key s.
Proof.
  unfold names_key. induction s as [|c s IH]; rewrite key_unfold, orb_true_iff, key_at_iff.
  - split.
    + intros [(k & g & p & H & Hk & B)|H]; [|discriminate]. exists "", k, g, p. auto.
    + intros ([|] & k & g & p & H & Hk & B); [left; exists k, g, p; auto|discriminate].
  - split.
    + intros [(k & g & p & H & Hk & B)|H]; [exists "", k, g, p; auto|].
      apply IH in H as (a & k & g & p & -> & Hk & B). exists (String c a), k, g, p. auto.
    + intros ([|d a] & k & g & p & H & Hk & B); cbn [append] in H; [left; exists k, g, p; auto|].
      injection H as -> H. right. apply IH. exists a, k, g, p. auto.
Qed.

Lemma kv_iff s : is_pg_key_value_pairs s = true <-> ~ has_slashes s /\ names_key s.
Proof.
  unfold is_pg_key_value_pairs, has_slashes. destruct (contains "://" s) eqn:E.
  - apply contains_iff in E. split; [discriminate|]. tauto.
  - apply contains_false in E. rewrite key_somewhere_iff. tauto.
Qed.

(** * Adding a pair *)
Lemma pairs_key k n t : (forall a c b, n = a ++ String c b -> ascii_blank c = false) -> free_of "=" n ->
  pairs_from (InKey k) (n ++ "=" ++ t) = pairs_from (AfterEq (k ++ n)) t.
Proof.
  revert k. induction n as [|c n IH]; intros k Hb Hf.
  - cbn. now rewrite sapp_nil.
  - cbn [append pairs_from]. rewrite (Hb "" c n eq_refl). destruct Hf as [H1 H2].
    destruct (Ascii.eqb_spec c "=") as [->|N]; [exfalso; exact (H1 "" "" eq_refl)|].
    rewrite IH; [|intros a d b ->; exact (Hb (String c a) d b eq_refl)|assumption].
    unfold snoc. rewrite sapp_assoc. reflexivity.
Qed.
Lemma pairs_value k w v : (forall a c b, v = a ++ String c b -> ascii_blank c = false) -> free_of (String backslash "'") v ->
  pairs_from (InValue k w) v = Some [(k, w ++ v)].
Proof.
  revert w. induction v as [|c v IH]; intros w Hb Hf.
  - cbn. now rewrite sapp_nil.
  - cbn [pairs_from]. rewrite (Hb "" c v eq_refl). destruct Hf as [H1 H2].
    destruct (Ascii.eqb_spec c backslash) as [->|N]; [exfalso; exact (H1 "" "'" eq_refl)|].
    rewrite IH; [|intros a d b ->; exact (Hb (String c a) d b eq_refl)|assumption].
    unfold snoc. rewrite sapp_assoc. reflexivity.
Qed.
Lemma pairs_one n v : plain_key n -> plain_value v ->
  pairs_from Between (" " ++ n ++ "=" ++ v) = Some [(n, v)].
Proof.
  intros (Nn & Fn & Bn) (Nv & Fv & Bv). cbn [append pairs_from]. change (ascii_blank " ") with true. cbn iota.
  destruct n as [|c n]; [congruence|]. destruct v as [|d v]; [congruence|].
  cbn [append pairs_from]. rewrite (Bn "" c n eq_refl). destruct Fn as [F1 F2].
  destruct (Ascii.eqb_spec c "=") as [->|N]; [exfalso; exact (F1 "" "" eq_refl)|].
  change (String "=" (String d v)) with ("=" ++ String d v).
  rewrite pairs_key; [|intros a x b ->; exact (Bn (String c a) x b eq_refl)|assumption].
  cbn [pairs_from]. rewrite (Bv "" d v eq_refl). destruct Fv as [G1 G2].
  destruct (Ascii.eqb_spec d "'") as [->|N']; [exfalso; exact (G1 (String backslash "") "" eq_refl)|].
  destruct (Ascii.eqb_spec d backslash) as [->|N'']; [exfalso; exact (G1 "" "'" eq_refl)|].
  rewrite pairs_value; [reflexivity|intros a x b ->; exact (Bv (String d a) x b eq_refl)|assumption].
Qed.
Lemma pairs_add st s n v ps : plain_key n -> plain_value v ->
  pairs_from st s = Some ps -> pairs_from st (s ++ " " ++ n ++ "=" ++ v) = Some (ps ++ [(n, v)])%list.
Proof.
  intros Pn Pv. pose proof (pairs_one n v Pn Pv) as P.
  assert (exists t, " " ++ n ++ "=" ++ v = String " " t) as (t & Et) by (eexists; reflexivity).
  rewrite Et in P |- *. clear Et Pn Pv.
  revert st ps. induction s as [|c s IH]; intros st ps H.
  - cbn [append]. destruct st; cbn [pairs_from] in H; try discriminate; injection H as <-.
    + exact P.
    + cbn [pairs_from] in P |- *. change (ascii_blank " ") with true in *. cbn iota in *. rewrite P. reflexivity.
  - cbn [append].
    destruct st; cbn [pairs_from] in H |- *;
    repeat match goal with |- context [if ?b then _ else _] => destruct b end;
    try discriminate; try (apply IH; assumption);
    match type of H with option_map _ ?x = _ => destruct x as [qs|] eqn:E; [|discriminate] end;
    cbn in H; injection H as <-; rewrite (IH _ _ E); reflexivity.
Qed.

(** * Adding a query parameter *)
Lemma cut_free c s : free_of (String c "") s -> cut c s = (s, None).
Proof.
  induction s as [|d s IH]; intros H; [reflexivity|]. destruct H as [H1 H2]. cbn [cut].
  destruct (Ascii.eqb_spec c d) as [->|N]; [exfalso; exact (H1 "" "" eq_refl)|]. rewrite IH by assumption. reflexivity.
Qed.
Lemma cut_at c s r : free_of (String c "") s -> cut c (s ++ String c r) = (s, Some r).
Proof.
  induction s as [|d s IH]; intros H; cbn [append cut].
  - rewrite Ascii.eqb_refl. reflexivity.
  - destruct H as [H1 H2]. destruct (Ascii.eqb_spec c d) as [->|N]; [exfalso; exact (H1 "" "" eq_refl)|].
    rewrite IH by assumption. reflexivity.
Qed.
Lemma cut_more c s a q t : cut c s = (a, Some q) -> cut c (s ++ t) = (a, Some (q ++ t)).
Proof.
  revert a. induction s as [|d s IH]; intros a H; [discriminate|]. cbn [append cut] in H |- *.
  destruct (Ascii.eqb c d); [congruence|]. destruct (cut c s) as [a' o]. injection H as <- ->.
  rewrite (IH a' eq_refl). reflexivity.
Qed.
Lemma cut_contains c s : contains (String c "") s = true <-> exists a q, cut c s = (a, Some q).
Proof.
  rewrite contains_iff. induction s as [|d s IH]; cbn [cut].
  - split; [intros ([|] & b & H); discriminate|intros (a & q & H); discriminate].
  - destruct (Ascii.eqb_spec c d) as [->|N].
    + split; [intros _; eauto|intros _; exists "", s; reflexivity].
    + split.
      * intros ([|x a] & b & H); cbn in H; injection H as -> H; [congruence|].
        destruct (proj1 IH (ex_intro _ a (ex_intro _ b H))) as (a' & q & E). rewrite E. eauto.
      * intros (a & q & H). destruct (cut c s) as [a' o] eqn:E. injection H as <- ->.
        destruct (proj2 IH (ex_intro _ a' (ex_intro _ q eq_refl))) as (x & y & ->). exists (String d x), y. reflexivity.
Qed.
Lemma contains_free c s : contains (String c "") s = false -> free_of (String c "") s.
Proof.
  induction s as [|d s IH]; intros H; [exact I|]. split.
  - intros a b E. apply one_char in E. subst d.
    rewrite contains_unfold in H. cbn [strip] in H. rewrite Ascii.eqb_refl in H. discriminate.
  - apply IH. rewrite contains_unfold in H. destruct (strip _ _); [discriminate|assumption].
Qed.
Lemma free_app chars a b : free_of chars (a ++ b) <-> free_of chars a /\ free_of chars b.
Proof. induction a as [|c a IH]; cbn; [tauto|]. rewrite IH. tauto. Qed.
Lemma free_sub chars chars' s : (forall c, mem_char c chars' = true -> mem_char c chars = true) -> free_of chars s -> free_of chars' s.
Proof.
  intros Hs. induction s as [|c s IH]; [auto|]. intros [H1 H2]. split; [|auto].
  intros a b E. assert (M : mem_char c chars' = true) by (apply mem_char_iff; eauto).
  apply Hs, mem_char_iff in M as (x & y & M). exact (H1 _ _ M).
Qed.

Lemma split_app c s t : split_on c (s ++ String c t) = (split_on c s ++ split_on c t)%list.
Proof.
  induction s as [|d s IH]; cbn [append split_on].
  - rewrite Ascii.eqb_refl. reflexivity.
  - rewrite IH. destruct (Ascii.eqb c d); [reflexivity|].
    destruct (split_on c s) as [|x l] eqn:E; [|reflexivity].
    exfalso. clear -E. destruct s; cbn in E; [discriminate|]. destruct (Ascii.eqb c a); [discriminate|]. destruct (split_on c s); discriminate.
Qed.
Lemma split_free c s : free_of (String c "") s -> split_on c s = [s].
Proof.
  induction s as [|d s IH]; intros H; [reflexivity|]. destruct H as [H1 H2]. cbn [split_on].
  destruct (Ascii.eqb_spec c d) as [->|N]; [exfalso; exact (H1 "" "" eq_refl)|]. rewrite IH by assumption. reflexivity.
Qed.

Lemma parameters_add s n v :
  free_of "#" s -> free_of "=&#" n -> free_of "&#" v ->
  parameters (s ++ (if contains "?" s then "&" else "?") ++ n ++ "=" ++ v) = (parameters s ++ [(n, v)])%list.
Proof.
  intros Fs Fn Fv.
  assert (Fn1 : free_of "=" n) by (revert Fn; apply free_sub; intros c; cbn; rewrite !orb_true_iff; tauto).
  assert (Fn2 : free_of "&" n) by (revert Fn; apply free_sub; intros c; cbn; rewrite !orb_true_iff; tauto).
  assert (Fn3 : free_of "#" n) by (revert Fn; apply free_sub; intros c; cbn; rewrite !orb_true_iff; tauto).
  assert (Fv1 : free_of "&" v) by (revert Fv; apply free_sub; intros c; cbn; rewrite !orb_true_iff; tauto).
  assert (Fv2 : free_of "#" v) by (revert Fv; apply free_sub; intros c; cbn; rewrite !orb_true_iff; tauto).
  assert (Fp : free_of "&" (n ++ "=" ++ v)).
  { apply free_app. split; [assumption|]. split; [|assumption]. intros a b E. apply one_char in E. discriminate. }
  assert (One : forall q l, query_of q = l -> True) by auto. clear One.
  assert (Piece : map (fun p => (fst (cut "=" p), match snd (cut "=" p) with Some w => w | None => "" end))
      (filter (fun p => negb (String.eqb p "")) (split_on "&" (n ++ "=" ++ v))) = [(n, v)]).
  { rewrite (split_free _ _ Fp). cbn [filter]. destruct (String.eqb_spec (n ++ "=" ++ v) "") as [E|_].
    { destruct n; discriminate. }
    cbn [negb map]. change (n ++ "=" ++ v) with (n ++ String "=" v). rewrite (cut_at "=" n v Fn1). reflexivity. }
  unfold parameters, query_of.
  assert (Hash : free_of "#" (s ++ (if contains "?" s then "&" else "?") ++ n ++ "=" ++ v)).
  { apply free_app. split; [assumption|]. apply free_app. split.
    - destruct (contains "?" s); (split; [|exact I]); intros a b E; apply one_char in E; discriminate.
    - apply free_app. split; [assumption|]. split; [|assumption]. intros a b E. apply one_char in E. discriminate. }
  rewrite (cut_free "#" _ Hash), (cut_free "#" s Fs). cbn [fst].
  destruct (contains "?" s) eqn:C.
  - apply cut_contains in C as (a & q & C). rewrite (cut_more _ _ _ _ _ C), C. cbn [snd].
    change ("&" ++ n ++ "=" ++ v) with (String "&" (n ++ "=" ++ v)). rewrite split_app, filter_app, map_app, Piece. reflexivity.
  - change ("?" ++ n ++ "=" ++ v) with (String "?" (n ++ "=" ++ v)).
    rewrite (cut_at "?" s _ (contains_free _ _ C)), (cut_free _ _ (contains_free _ _ C)). cbn [snd]. rewrite Piece. reflexivity.
Qed.

(** Where the slashes of a longer string are. *)
Lemma slashes_in_front s t : free_of "/" t -> has_slashes (s ++ t) -> has_slashes s.
Proof.
  intros Ft (a & b & H). revert s H. induction a as [|c a IH]; intros s H.
  - destruct s as [|x s]; [exfalso; cbn in H; subst t; destruct Ft as (_ & F & _); exact (F "" "" eq_refl)|].
    destruct s as [|y s]; [exfalso; cbn in H; injection H as _ H; subst t; destruct Ft as (F & _); exact (F "" "" eq_refl)|].
    destruct s as [|z s]; [exfalso; cbn in H; injection H as _ _ H; subst t; destruct Ft as (F & _); exact (F "" "" eq_refl)|].
    cbn in H. injection H as -> -> -> H. exists "", s. reflexivity.
  - destruct s as [|x s].
    + exfalso. cbn [append] in H. subst t. clear IH. destruct Ft as [_ F].
      apply free_app in F as [_ (_ & F & _)]. exact (F "" "" eq_refl).
    + cbn [append] in H. injection H as -> H. destruct (IH s H) as (p & q & ->). exists (String c p), q. reflexivity.
Qed.
Lemma names_key_more s t : names_key s -> names_key (s ++ t).
Proof.
  intros (p & k & g & q & -> & Hk & B). exists p, k, g, (q ++ t). split; [|auto].
  rewrite !sapp_assoc. reflexivity.
Qed.

(** * JSON *)
Lemma escape_one c t : read_string (json_escape c ++ t) = prepend (String c "") (read_string t).
Proof. destruct c as [[] [] [] [] [] [] [] []]; reflexivity. Qed.
Lemma read_escaped s t : read_string (json_escaped s ++ String dquote t) = Some (s, t).
Proof.
  induction s as [|c s IH].
  - reflexivity.
  - cbn [json_escaped]. rewrite sapp_assoc, escape_one, IH. reflexivity.
Qed.

Lemma skip_ws_one c r : json_ws c = true -> skip_ws (String c r) = skip_ws r.
Proof. intros H. cbn [skip_ws]. rewrite H. reflexivity. Qed.
Lemma expect_ws c w r : json_ws w = true -> expect_char c (String w r) = expect_char c r.
Proof. intros H. unfold expect_char. rewrite skip_ws_one by assumption. reflexivity. Qed.
Lemma expect_here c r : json_ws c = false -> expect_char c (String c r) = Some r.
Proof. intros H. unfold expect_char. cbn [skip_ws]. rewrite H, Ascii.eqb_refl. reflexivity. Qed.
Lemma expect_not c d r : json_ws d = false -> Ascii.eqb c d = false -> expect_char c (String d r) = None.
Proof. intros H E. unfold expect_char. cbn [skip_ws]. rewrite H, E. reflexivity. Qed.

Lemma read_member_ok k v ws t :
  (forall q, expect_char dquote (ws ++ q) = expect_char dquote q) ->
  read_member (ws ++ json_string k ++ ": " ++ json_string v ++ t) = Some (k, v, t).
Proof.
  intros Hw. unfold read_member. rewrite Hw. unfold json_string. cbn [append].
  rewrite expect_here by reflexivity. rewrite sapp_assoc. cbn [append]. rewrite read_escaped.
  rewrite expect_here by reflexivity. rewrite expect_ws by reflexivity. rewrite expect_here by reflexivity.
  rewrite sapp_assoc. cbn [append]. rewrite read_escaped. reflexivity.
Qed.

Lemma read_object_ok c : read_object (json_of c) =
  Some ([("backend_name", backend_name c); ("conn_str", conn_str c)], newline).
Proof.
  unfold read_object, json_of. set (body := newline ++ "  " ++ _). change ("{" ++ body) with (String "{" body).
  rewrite expect_here by reflexivity. subst body.
  set (rest := newline ++ "  " ++ json_string "conn_str" ++ ": " ++ json_string (conn_str c) ++ newline ++ "}" ++ newline).
  set (l := String.length _). assert (exists n, l = S (S n)) as (n & ->) by (exists (l - 2); subst l; cbn; lia).
  cbn [read_members].
  rewrite <- (sapp_assoc newline "  "). rewrite (read_member_ok "backend_name" (backend_name c) (newline ++ "  ")) by reflexivity.
  change ("," ++ rest) with (String "," rest). rewrite expect_here by reflexivity. subst rest.
  rewrite <- (sapp_assoc newline "  "). rewrite (read_member_ok "conn_str" (conn_str c) (newline ++ "  ")) by reflexivity.
  cbn [append newline]. unfold newline. cbn [append]. rewrite expect_ws by reflexivity. rewrite expect_not by reflexivity.
  rewrite expect_ws by reflexivity. rewrite expect_here by reflexivity. reflexivity.
Qed.

(** Reading a longer text: what was read stays the same. *)
Lemma read_string_more p x r q : read_string p = Some (x, r) -> read_string (p ++ q) = Some (x, r ++ q).
Proof.
  remember (String.length p) as n eqn:En. revert p En x. induction n as [n IH] using lt_wf_ind.
  intros p En x H. destruct p as [|c p]; [discriminate|]. cbn [append read_string] in H |- *.
  destruct (Ascii.eqb c dquote); [congruence|]. destruct (Ascii.eqb c backslash).
  - destruct p as [|e p]; [discriminate|]. cbn [append]. destruct (unescape e) as [y|].
    + destruct (read_string p) as [[x' r']|] eqn:E; [|discriminate]. cbn [prepend] in H. injection H as <- <-.
      rewrite (IH (String.length p)) with (x := x'); auto. cbn in En. lia.
    + destruct (Ascii.eqb e "u"); [|discriminate].
      destruct p as [|h1 [|h2 [|h3 [|h4 p]]]]; try discriminate. cbn [append].
      destruct (unhex h1), (unhex h2), (unhex h3), (unhex h4); try discriminate.
      destruct (utf8 _ _ _ _) as [u|]; [|discriminate].
      destruct (read_string p) as [[x' r']|] eqn:E; [|discriminate]. cbn [prepend] in H. injection H as <- <-.
      rewrite (IH (String.length p)) with (x := x'); auto. cbn in En. lia.
  - destruct (Nat.ltb (code c) 32); [discriminate|].
    destruct (read_string p) as [[x' r']|] eqn:E; [|discriminate]. cbn [prepend] in H. injection H as <- <-.
    rewrite (IH (String.length p)) with (x := x'); auto. cbn in En. lia.
Qed.
Lemma skip_ws_more p q c r : skip_ws p = String c r -> skip_ws (p ++ q) = String c (r ++ q).
Proof.
  induction p as [|d p IH]; [discriminate|]. cbn [append skip_ws]. destruct (json_ws d); [assumption|].
  intros [= <- <-]. reflexivity.
Qed.
Lemma expect_more c p q r : expect_char c p = Some r -> expect_char c (p ++ q) = Some (r ++ q).
Proof.
  unfold expect_char. destruct (skip_ws p) as [|d s] eqn:E; [discriminate|]. rewrite (skip_ws_more _ q _ _ E).
  destruct (Ascii.eqb c d); congruence.
Qed.
Lemma expect_other c d p q r : c <> d -> expect_char c p = Some r -> expect_char d (p ++ q) = None.
Proof.
  unfold expect_char. intros N. destruct (skip_ws p) as [|e s] eqn:E; [discriminate|]. rewrite (skip_ws_more _ q _ _ E).
  destruct (Ascii.eqb_spec c e) as [->|]; [|discriminate]. intros _. destruct (Ascii.eqb_spec d e); congruence.
Qed.
Lemma read_member_more p k v r q : read_member p = Some (k, v, r) -> read_member (p ++ q) = Some (k, v, r ++ q).
Proof.
  unfold read_member. destruct (expect_char dquote p) as [s1|] eqn:E1; [|discriminate]. rewrite (expect_more _ _ q _ E1).
  destruct (read_string s1) as [[k' s2]|] eqn:E2; [|discriminate]. rewrite (read_string_more _ _ _ q E2).
  destruct (expect_char ":" s2) as [s3|] eqn:E3; [|discriminate]. rewrite (expect_more _ _ q _ E3).
  destruct (expect_char dquote s3) as [s4|] eqn:E4; [|discriminate]. rewrite (expect_more _ _ q _ E4).
  destruct (read_string s4) as [[v' s5]|] eqn:E5; [|discriminate]. rewrite (read_string_more _ _ _ q E5). congruence.
Qed.
Lemma read_members_more n m p l r q : n <= m ->
  read_members n p = Some (l, r) -> read_members m (p ++ q) = Some (l, r ++ q).
Proof.
  revert m p l. induction n as [|n IH]; intros m p l Hm H; [discriminate|]. destruct m as [|m]; [lia|].
  cbn [read_members] in H |- *. destruct (read_member p) as [[[k v] s1]|] eqn:E1; [|discriminate].
  rewrite (read_member_more _ _ _ _ q E1). destruct (expect_char "," s1) as [s2|] eqn:E2.
  - rewrite (expect_more _ _ q _ E2). destruct (read_members n s2) as [[l' r']|] eqn:E3; [|discriminate].
    injection H as <- <-. rewrite (IH m _ _ ltac:(lia) E3). reflexivity.
  - destruct (expect_char "}" s1) as [s2|] eqn:E3; [|discriminate].
    rewrite (expect_other "}" "," _ q _ ltac:(discriminate) E3), (expect_more _ _ q _ E3). congruence.
Qed.
Lemma read_object_more p l r q : read_object p = Some (l, r) -> read_object (p ++ q) = Some (l, r ++ q).
Proof.
  unfold read_object. destruct (expect_char "{" p) as [s1|] eqn:E; [|discriminate]. rewrite (expect_more _ _ q _ E).
  apply read_members_more. rewrite sapp_len. lia.
Qed.

Lemma of_json_ok c : of_json (json_of c) = Ok c.
Proof. unfold of_json. rewrite read_object_ok. destruct c; reflexivity. Qed.
Lemma of_json_prefix c p q c' : json_of c = p ++ q -> of_json p = Ok c' -> c' = c.
Proof.
  intros H Hp. pose proof (read_object_ok c) as Hc. rewrite H in Hc. unfold of_json in Hp.
  destruct (read_object p) as [[l r]|] eqn:E; [|discriminate]. rewrite (read_object_more _ _ _ q E) in Hc. injection Hc as -> _.
  destruct (skip_ws r); [|discriminate]. cbn in Hp. destruct c. injection Hp as <-. reflexivity.
Qed.
Lemma substring_prefix n s : exists q, s = substring 0 n s ++ q.
Proof.
  revert s. induction n as [|n IH]; intros [|c s].
  - exists "". reflexivity.
  - exists (String c s). reflexivity.
  - exists "". reflexivity.
  - destruct (IH s) as (q & Hq). exists q. cbn [substring append]. congruence.
Qed.
Lemma substring_all s : substring 0 (String.length s) s = s.
Proof. induction s; cbn; congruence. Qed.
