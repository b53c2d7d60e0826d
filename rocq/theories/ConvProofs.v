(** Proofs about conversions of Rust values. *)
From Coq Require Import Nnat.
From Verif Require Import Base SqlVal Time Conv ConvSpec.

Local Open Scope Z_scope.

Lemma wrap_id w z : int_in w z -> wrap w z = z.
Proof.
  unfold wrap. intros H. rewrite Z.mod_small; [lia|]. destruct w; cbn in *; lia.
Qed.
Lemma wrap_in w z : int_in w (wrap w z).
Proof.
  unfold wrap. pose proof (Z.mod_pos_bound (z - lowest w) (2 ^ bits w)) as B.
  assert (0 < 2 ^ bits w) by (destruct w; reflexivity). destruct w; cbn in *; lia.
Qed.

(** ** Floats *)

Lemma decode64 s e m : 0 <= s -> 0 <= e < 2048 -> 0 <= m < 2 ^ 52 ->
  let r := s * 2 ^ 63 + (e * 2 ^ 52 + m) in
  r / 2 ^ 63 = s /\ (r / 2 ^ 52) mod 2048 = e /\ r mod 2 ^ 52 = m.
Proof.
  intros Hs He Hm r.
  assert (E1 : r = m + (s * 2048 + e) * 2 ^ 52) by (unfold r; lia).
  repeat split.
  - symmetry. apply Z.div_unique with (e * 2 ^ 52 + m); [left; lia|unfold r; lia].
  - rewrite E1, Z.div_add, (Z.div_small m), Z.add_0_l by lia.
    rewrite Z.add_comm, Z.mod_add, Z.mod_small by lia. reflexivity.
  - rewrite E1, Z.mod_add, Z.mod_small by lia. reflexivity.
Qed.
Lemma decode32 b : 0 <= b < 2 ^ 32 ->
  b = b / 2 ^ 31 * 2 ^ 31 + (f32_exp b * 2 ^ 23 + f32_frac b) /\ 0 <= b / 2 ^ 31 <= 1
  /\ 0 <= f32_exp b < 256 /\ 0 <= f32_frac b < 2 ^ 23.
Proof.
  intros H. unfold f32_exp, f32_frac.
  pose proof (Z.mod_pos_bound b (2 ^ 23) ltac:(lia)). pose proof (Z.mod_pos_bound (b / 2 ^ 23) 256 ltac:(lia)).
  pose proof (Z_div_mod_eq_full b (2 ^ 23)). pose proof (Z_div_mod_eq_full (b / 2 ^ 23) 256) as D2.
  assert (E : b / 2 ^ 23 / 256 = b / 2 ^ 31) by (rewrite Z.div_div by lia; reflexivity). rewrite E in D2.
  split; [lia|]. split; [|split; assumption].
  split; [apply Z.div_pos; lia|]. apply Z.lt_succ_r. apply Z.div_lt_upper_bound; lia.
Qed.
Lemma round_exact a k : 0 <= k -> round_shift (a * 2 ^ k) k = a.
Proof.
  intros H. unfold round_shift. assert (0 < 2 ^ k) by (apply Z.pow_pos_nonneg; lia).
  rewrite Z.div_mul, Z_mod_mult by lia. rewrite Z.mul_0_r.
  destruct (Z.ltb_spec (2 ^ k) 0); [lia|]. destruct (Z.eqb_spec (2 ^ k) 0); [lia|]. reflexivity.
Qed.

Theorem f32_roundtrip b : 0 <= b < 2 ^ 32 -> f32_is_nan b = false -> f64_to_f32 (f32_to_f64 b) = b.
Proof.
  intros H N. destruct (decode32 b H) as (Eb & Hs & He & Hm).
  unfold f32_is_nan in N. unfold f32_to_f64.
  set (s := b / 2 ^ 31) in *. set (e := f32_exp b) in *. set (m := f32_frac b) in *. clearbody s e m. cbv zeta.
  destruct (Z.eqb_spec e 255) as [He255|He255].
  - subst e. cbn [andb] in N. apply negb_false_iff in N. apply Z.eqb_eq in N. subst m. cbn [Z.eqb].
    destruct (decode64 s 2047 0 ltac:(lia) ltac:(lia) ltac:(lia)) as (D1 & D2 & D3).
    unfold f64_to_f32. rewrite D1, D2, D3. cbv zeta. rewrite !Z.eqb_refl. cbv iota. lia.
  - destruct (Z.eqb_spec e 0) as [->|He0].
    + destruct (Z.eqb_spec m 0) as [Em|Hm0].
      * subst m. pose proof (decode64 s 0 0 ltac:(lia) ltac:(lia) ltac:(lia)) as (D1 & D2 & D3).
        change (0 * 2 ^ 52 + 0) with 0 in *. unfold f64_to_f32. rewrite D1, D2, D3. cbv zeta. cbn [Z.eqb]. change (0 =? 2047) with false. cbv iota.
        change (897 <=? 1) with false. cbv iota. replace (round_shift 0 (29 + (897 - 1))) with 0; [lia|reflexivity].
      * set (k := Z.log2 m). assert (Hk : 2 ^ k <= m < 2 ^ (k + 1)).
        { destruct (Z.log2_spec m ltac:(lia)) as [A B]. split; [exact A|]. replace (k + 1) with (Z.succ (Z.log2 m)) by (unfold k; lia). exact B. }
        assert (0 <= k) by apply Z.log2_nonneg.
        assert (k < 23). { apply Z.log2_lt_pow2; lia. }
        assert (Ep : 2 ^ k * 2 ^ (52 - k) = 2 ^ 52). { rewrite <- Z.pow_add_r by lia. f_equal. lia. }
        assert (Ep2 : 2 ^ (k + 1) * 2 ^ (52 - k) = 2 ^ 53). { rewrite <- Z.pow_add_r by lia. f_equal. lia. }
        assert (P : 0 < 2 ^ (52 - k)) by (apply Z.pow_pos_nonneg; lia).
        destruct (decode64 s (874 + k) (m * 2 ^ (52 - k) - 2 ^ 52) ltac:(lia) ltac:(lia)) as (D1 & D2 & D3).
        { split; [nia|]. assert (m * 2 ^ (52 - k) < 2 ^ 53) by nia. lia. }
        unfold f64_to_f32. rewrite D1, D2, D3. cbv zeta.
        destruct (Z.eqb_spec (874 + k) 2047); [lia|]. destruct (Z.eqb_spec (874 + k) 0); [lia|].
        destruct (Z.leb_spec 897 (874 + k)); [lia|].
        replace (29 + (897 - (874 + k))) with (52 - k) by lia.
        replace (m * 2 ^ (52 - k) - 2 ^ 52 + 2 ^ 52) with (m * 2 ^ (52 - k)) by lia.
        rewrite round_exact by lia. lia.
    + destruct (decode64 s (e + 896) (m * 2 ^ 29) ltac:(lia) ltac:(lia) ltac:(lia)) as (D1 & D2 & D3).
      unfold f64_to_f32. rewrite D1, D2, D3. cbv zeta.
      destruct (Z.eqb_spec (e + 896) 2047); [lia|]. destruct (Z.eqb_spec (e + 896) 0); [lia|].
      destruct (Z.leb_spec 897 (e + 896)); [|lia].
      replace (m * 2 ^ 29 + 2 ^ 52) with ((m + 2 ^ 23) * 2 ^ 29) by lia. rewrite round_exact by lia.
      rewrite Z.min_r by lia. lia.
Qed.

Local Close Scope Z_scope.

(** ** Round trip *)

Local Arguments f32_to_f64 : simpl never.
Local Arguments f64_to_f32 : simpl never.
Local Arguments wrap : simpl never.
Local Arguments parse_uuid : simpl never.

Lemma not_null t : is_option t = false -> forall x v, to_sql t x = Ok v -> single_option t -> v <> VNull.
Proof.
  induction t; cbn; intros Hn x v E So; try (injection E as <-; discriminate).
  - destruct (big w); injection E as <-; discriminate.
  - discriminate.
  - destruct So as [So1 So2]. destruct x as [x|]; [|discriminate]. eapply IHt; eassumption.
Qed.
Theorem conv_roundtrip t : single_option t -> forall x, rust_ok t x ->
  exists v, to_sql t x = Ok v /\ from_sql t v = Ok x.
Proof.
  induction t; cbn; intros So x Hx; try (eexists; split; reflexivity).
  - eexists. split; [reflexivity|]. destruct (big w) eqn:B; rewrite ?B; now rewrite wrap_id.
  - destruct Hx. eexists. split; [reflexivity|]. cbv iota. now rewrite f32_roundtrip.
  - eexists. split; [reflexivity|]. cbv iota. rewrite Hx. reflexivity.
  - destruct So as [So1 So2]. destruct x as [x|]; [|eexists; split; reflexivity].
    destruct (IHt So2 x Hx) as (v & E1 & E2). exists v. split; [exact E1|].
    pose proof (not_null t So1 x v E1 So2). destruct v; try congruence; rewrite E2; reflexivity.
  - destruct So as [So1 So2]. destruct x as [x|]; [|contradiction].
    destruct (IHt So2 x Hx) as (v & E1 & E2). exists v. split; [exact E1|]. rewrite E2. reflexivity.
Qed.

Theorem conv_kind t : single_option t -> forall x v, to_sql t x = Ok v -> is_compatible v (rsqltype t) (is_option t) = true.
Proof.
  intros So x v E. revert x v E So. induction t; cbn; intros x v E So; try (injection E as <-; reflexivity).
  - destruct (big w); injection E as <-; reflexivity.
  - destruct So as [So1 So2]. destruct x as [x|]; [|injection E as <-; reflexivity].
    pose proof (IHt x v E So2) as C. rewrite So1 in C. unfold is_compatible in *. destruct (sqlval_type v); [assumption|reflexivity].
  - destruct So as [So1 So2]. destruct x as [x|]; [|discriminate]. pose proof (IHt x v E So2) as C. now rewrite So1 in C.
Qed.

Theorem conv_other_kind t v :
  sqlval_type v <> Some (rsqltype t) -> ~ (v = VNull /\ is_option t = true) ->
  ~ (is_uuid t = true /\ exists s, v = VText s) -> single_option t ->
  from_sql t v = Err CannotConvertSqlVal.
Proof.
  induction t; cbn; intros K Nn Nu So.
  1,3,4,5,6,7,8,9,10: destruct v; cbn in *; try congruence; reflexivity.
  - destruct v; cbn in *; try reflexivity; destruct (big w); reflexivity || congruence.
  - destruct v; cbn in *; try reflexivity; [|congruence]. elim Nu. eauto.
  - destruct So as [So1 So2]. rewrite IHt; [|assumption| |assumption|assumption].
    + destruct v; try reflexivity. elim Nn. auto.
    + intros [_ C]. congruence.
  - destruct So as [So1 So2]. rewrite IHt; [reflexivity|assumption| |assumption|assumption].
    intros [_ C]. congruence.
Qed.

Theorem conv_fits t : forall v x, fits_type t v -> from_sql t v = Ok x -> to_sql t x = Ok v.
Proof.
  induction t; cbn; intros v x F E.
  1,3,5,6,7,8,9,10: destruct v; try discriminate; injection E as <-; reflexivity.
  - destruct v; try discriminate; destruct (big w) eqn:B; try discriminate; injection E as <-; rewrite wrap_id by assumption; now rewrite ?B.
  - destruct v; try discriminate. injection E as <-. destruct F as (y & Hy & Ny & ->). now rewrite f32_roundtrip.
  - destruct v; try discriminate; [contradiction|]. destruct (Nat.eqb_spec (String.length b) 16); [|discriminate]. injection E as <-. reflexivity.
  - destruct v; try (destruct (from_sql t _) eqn:Ef; cbn in E; try discriminate; injection E as <-; apply IHt; assumption).
    injection E as <-. reflexivity.
  - destruct (from_sql t v) eqn:Ef; cbn in E; try discriminate. injection E as <-. apply IHt; assumption.
Qed.

Theorem conv_total t v : from_sql t v <> Panic.
Proof.
  induction t; cbn; destruct v; try discriminate;
    try (destruct (big w); discriminate);
    try (destruct (from_sql t _); cbn; congruence).
  - destruct (parse_uuid s); discriminate.
  - destruct (Nat.eqb _ _); discriminate.
Qed.

(** ** Uuid text *)

Lemma hex_val_digit z : (z < 16)%N -> hex_val (hex_digit z) = Some z.
Proof.
  intros H. assert (exists n, (n < 16)%nat /\ z = N.of_nat n) as (n & Hn & ->).
  { exists (N.to_nat z). split; [lia|]. now rewrite N2Nat.id. }
  do 16 (destruct n as [|n]; [reflexivity|]). lia.
Qed.
Lemma hex_char c : exists a b, hex_of c = String a (String b "") /\
  forall r, hex_bytes (String a (String b r)) = match hex_bytes r with Some t => Some (String c t) | None => None end.
Proof.
  unfold hex_of. set (n := N_of_ascii c). do 2 eexists. split; [reflexivity|]. intros r. cbn [hex_bytes].
  assert (n < 256)%N by (unfold n; apply N_ascii_bounded).
  rewrite !hex_val_digit by (try apply N.div_lt_upper_bound; try apply N.mod_lt; lia).
  destruct (hex_bytes r); [|reflexivity]. do 2 f_equal.
  rewrite <- N.div_mod by lia. apply ascii_N_embedding.
Qed.
Lemma hex_bytes_text s r : hex_bytes (hex_text s ++ r) = match hex_bytes r with Some t => Some (s ++ t)%string | None => None end.
Proof.
  induction s as [|c s IH]; [cbn; destruct (hex_bytes r); reflexivity|].
  cbn [hex_text]. destruct (hex_char c) as (a & b & -> & H). cbn [append]. rewrite H, IH. destruct (hex_bytes r); reflexivity.
Qed.

Theorem uuid_text_read u : String.length u = 16 ->
  parse_uuid (uuid_text u) = Some u /\ parse_uuid (hex_text u) = Some u
  /\ parse_uuid ("{" ++ uuid_text u ++ "}") = Some u /\ parse_uuid ("urn:uuid:" ++ uuid_text u) = Some u.
Proof.
  intros H. remember u as w eqn:Ew. rewrite Ew in H.
  do 16 (destruct u as [|? u]; [discriminate|]). destruct u; [|discriminate]. clear H.
  assert (P : parse_hyphenated (uuid_text w) = Some w).
  { rewrite Ew. unfold uuid_text. cbn [substring hex_text].
    destruct (hex_char a) as (p & q & E & K), (hex_char a0) as (p0 & q0 & E0 & K0), (hex_char a1) as (p1 & q1 & E1 & K1), (hex_char a2) as (p2 & q2 & E2 & K2),
     (hex_char a3) as (p3 & q3 & E3 & K3), (hex_char a4) as (p4 & q4 & E4 & K4), (hex_char a5) as (p5 & q5 & E5 & K5), (hex_char a6) as (p6 & q6 & E6 & K6),
     (hex_char a7) as (p7 & q7 & E7 & K7), (hex_char a8) as (p8 & q8 & E8 & K8), (hex_char a9) as (p9 & q9 & E9 & K9), (hex_char a10) as (p10 & q10 & E10 & K10),
     (hex_char a11) as (p11 & q11 & E11 & K11), (hex_char a12) as (p12 & q12 & E12 & K12), (hex_char a13) as (p13 & q13 & E13 & K13), (hex_char a14) as (p14 & q14 & E14 & K14).
    rewrite E, E0, E1, E2, E3, E4, E5, E6, E7, E8, E9, E10, E11, E12, E13, E14.
    unfold parse_hyphenated. cbn [append substring]. change (String.eqb "-" "-") with true. cbn [andb].
    rewrite K, K0, K1, K2, K3, K4, K5, K6, K7, K8, K9, K10, K11, K12, K13, K14. reflexivity. }
  assert (L : String.length (uuid_text w) = 36) by (rewrite Ew; reflexivity).
  repeat split.
  - unfold parse_uuid. rewrite L. exact P.
  - unfold parse_uuid. assert (L2 : String.length (hex_text w) = 32) by (rewrite Ew; reflexivity). rewrite L2. cbv iota.
    rewrite <- (str_app_nil_r (hex_text _)), hex_bytes_text. cbn [hex_bytes]. now rewrite str_app_nil_r.
  - set (t := uuid_text _) in *. clearbody t. unfold parse_uuid. cbn [append String.length]. rewrite str_app_length, L. cbn [String.length Nat.add]. cbv iota.
    destruct t as [|c t]; [discriminate|]. cbn [append substring]. change (String.eqb "{" "{") with true.
    assert (Es : forall n s, String.length s = n -> substring n 1 (s ++ "}") = "}"%string /\ substring 0 n (s ++ "}") = s).
    { clear. induction n as [|n IH]; intros [|x s] Hl; cbn in Hl; try discriminate; [split; reflexivity|].
      destruct (IH s) as [A B]; [lia|]. cbn [append substring]. rewrite B. split; [exact A|reflexivity]. }
    cbn [String.length] in L. destruct (Es 35 t) as [A B]; [lia|]. rewrite A, B. change (String.eqb "}" "}") with true. cbn [andb]. exact P.
  - set (t := uuid_text _) in *. clearbody t. unfold parse_uuid. cbn [append String.length]. rewrite L. cbv iota.
    cbn [append substring]. 
    assert (Es : forall s, substring 0 (String.length s) s = s).
    { clear. induction s as [|x s IH]; cbn; [reflexivity|]. now rewrite IH. }
    pose proof (Es t) as A. rewrite L in A.
    destruct t as [|c t]; [discriminate|]. rewrite A. change (String.eqb "urn:uuid:" "urn:uuid:") with true. cbv iota. exact P.
Qed.

(** ** Maps *)
Theorem map_roundtrip {T} (ser : T -> string) (de : string -> option T) object members :
  (forall x, de (ser x) = Some x) -> (forall l, members (object l) = Some l) ->
  forall m, map_from_sql de members (map_to_sql ser object m) = Ok m.
Proof.
  intros H1 H2 m. unfold map_to_sql, map_from_sql. rewrite H2.
  induction m as [|[k x] m IH]; [reflexivity|]. cbn. rewrite H1. rewrite IH. reflexivity.
Qed.
Theorem conv_column t : forall x v, rust_ok t x -> to_sql t x = Ok v -> fits_column v.
Proof.
  induction t; cbn; intros x v Hx E; try (injection E as <-; exact I).
  - destruct w; injection E as <-; cbn in *; lia.
  - destruct x as [x|]; [exact (IHt x v Hx E)|injection E as <-; exact I].
  - destruct x as [x|]; [exact (IHt x v Hx E)|discriminate].
Qed.
Theorem conv_low_bits w z x : from_sql (RInt w) (VInt z) = Ok x \/ from_sql (RInt w) (VBigInt z) = Ok x ->
  int_in w x /\ exists k, z = (x + k * int_values w)%Z.
Proof.
  intros H. assert (E : x = wrap w z) by (destruct H as [H|H]; cbn in H; destruct (big w); congruence). subst x.
  split; [apply wrap_in|]. exists ((z - lowest w) / 2 ^ bits w)%Z. unfold wrap. pose proof (Z_div_mod_eq_full (z - lowest w) (2 ^ bits w)) as D.
  assert (int_values w = 2 ^ bits w)%Z as -> by (destruct w; reflexivity). lia.
Qed.
