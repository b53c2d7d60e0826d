(** Proofs about the conversions between f64 and f32. *)
From Verif Require Import Base SqlVal Time Conv ConvSpec ConvProofs.

Local Open Scope Z_scope.

Lemma round_near a k : 0 <= k -> let q := round_shift a k in
  2 * Z.abs (q * 2 ^ k - a) <= 2 ^ k /\ (2 * Z.abs (q * 2 ^ k - a) = 2 ^ k -> Z.even q = true).
Proof.
  intros H. cbv zeta. unfold round_shift. assert (P : 0 < 2 ^ k) by (apply Z.pow_pos_nonneg; lia).
  pose proof (Z_div_mod_eq_full a (2 ^ k)) as D. pose proof (Z.mod_pos_bound a (2 ^ k) P) as B.
  set (q := a / 2 ^ k) in *. set (r := a mod 2 ^ k) in *. set (p := 2 ^ k) in *. clearbody q r p. subst a.
  destruct (Z.ltb_spec p (2 * r)); cbn [orb].
  - split; [nia|]. intros E. exfalso. nia.
  - destruct (Z.eqb_spec p (2 * r)); cbn [andb].
    + destruct (Z.odd q) eqn:O.
      * split; [nia|]. intros _. rewrite Z.even_add, <- Z.negb_odd, O. reflexivity.
      * split; [nia|]. intros _. now rewrite <- Z.negb_odd, O.
    + split; [nia|]. intros E. exfalso. nia.
Qed.
Lemma round_range a k lo hi : 0 <= k -> lo * 2 ^ k <= a < hi * 2 ^ k -> lo <= round_shift a k <= hi.
Proof.
  intros H B. destruct (round_near a k H) as [N _]. assert (P : 0 < 2 ^ k) by (apply Z.pow_pos_nonneg; lia). nia.
Qed.

(** The parts of an f64. *)
Lemma parts64 b : 0 <= b < f64_top -> exists e m, b = e * 2 ^ 52 + m /\ 0 <= e < 2047 /\ 0 <= m < 2 ^ 52
  /\ b / 2 ^ 63 = 0 /\ (b / 2 ^ 52) mod 2048 = e /\ b mod 2 ^ 52 = m.
Proof.
  unfold f64_top. intros H. exists (b / 2 ^ 52), (b mod 2 ^ 52).
  pose proof (Z_div_mod_eq_full b (2 ^ 52)). pose proof (Z.mod_pos_bound b (2 ^ 52) ltac:(lia)).
  assert (0 <= b / 2 ^ 52 < 2047) by (split; [apply Z.div_pos; lia|apply Z.div_lt_upper_bound; lia]).
  repeat split; try lia.
  - apply Z.div_small. lia.
  - apply Z.mod_small. lia.
Qed.
Lemma units32 e m : 0 <= e < 256 -> 0 <= m < 2 ^ 23 ->
  f32_units (e * 2 ^ 23 + m) = (if Z.eqb e 0 then m else (m + 2 ^ 23) * 2 ^ (e - 1)) * 2 ^ 925.
Proof.
  intros He Hm. unfold f32_units.
  assert (E1 : (e * 2 ^ 23 + m) / 2 ^ 23 = e) by (rewrite Z.add_comm, Z.div_add, Z.div_small by lia; lia).
  assert (E2 : (e * 2 ^ 23 + m) mod 2 ^ 23 = m) by (rewrite Z.add_comm, Z.mod_add, Z.mod_small by lia; lia).
  rewrite E1, E2, Z.mod_small by lia. reflexivity.
Qed.
(** With one bit more. *)
Lemma units_step E q : 0 <= E < 254 -> (E = 0 \/ 2 ^ 23 <= q) -> 0 <= q <= 2 ^ 24 -> E * 2 ^ 23 + q < f32_top ->
  f32_units (E * 2 ^ 23 + q) = q * 2 ^ E * 2 ^ 925.
Proof.
  unfold f32_top. intros HE Hq Hr Ht.
  destruct (Z.eq_dec q (2 ^ 24)) as [->|Nq].
  - replace (E * 2 ^ 23 + 2 ^ 24) with ((E + 2) * 2 ^ 23 + 0) by lia. rewrite units32 by lia.
    destruct (Z.eqb_spec (E + 2) 0); [lia|]. f_equal. replace (E + 2 - 1) with (Z.succ E) by lia. rewrite Z.pow_succ_r by lia. lia.
  - destruct (Z.leb_spec (2 ^ 23) q) as [L|L].
    + replace (E * 2 ^ 23 + q) with ((E + 1) * 2 ^ 23 + (q - 2 ^ 23)) by lia. rewrite units32 by lia.
      destruct (Z.eqb_spec (E + 1) 0); [lia|]. f_equal. replace (E + 1 - 1) with E by lia. f_equal. lia.
    + destruct Hq as [->|]; [|lia]. rewrite units32 by lia. cbn [Z.eqb]. lia.
Qed.

(** What the conversion computes, for a finite number without sign: the nearest multiple
    [q * g] of the distance [g] of its neighbours. *)
Definition narrow (b E q g : Z) : Prop :=
  0 <= E /\ g = 2 ^ E * 2 ^ 925 /\ 0 <= q <= 2 ^ 24
  /\ f64_to_f32 b = Z.min f32_top (E * 2 ^ 23 + q)
  /\ (E = 0 \/ (2 ^ 23 * g <= f64_units b /\ 2 ^ 23 <= q))
  /\ f64_units b < 2 ^ 24 * g
  /\ 2 * Z.abs (q * g - f64_units b) <= g
  /\ (2 * Z.abs (q * g - f64_units b) = g -> Z.even q = true).
Lemma scale_near q a p s g : 0 < s -> g = p * s ->
  2 * Z.abs (q * p - a) <= p /\ (2 * Z.abs (q * p - a) = p -> Z.even q = true) ->
  2 * Z.abs (q * g - a * s) <= g /\ (2 * Z.abs (q * g - a * s) = g -> Z.even q = true).
Proof.
  intros Hs -> [A B]. replace (q * (p * s) - a * s) with ((q * p - a) * s) by ring. rewrite Z.abs_mul, (Z.abs_eq s) by lia.
  split; [nia|]. intros E. apply B. nia.
Qed.
Lemma narrows b : 0 <= b < f64_top -> exists E q g, narrow b E q g.
Proof.
  intros H. destruct (parts64 b H) as (e & m & Eb & He & Hm & D1 & D2 & D3).
  set (sig := if Z.eqb e 0 then m else m + 2 ^ 52). set (x := if Z.eqb e 0 then 1 else e).
  assert (Hx : 1 <= x < 2047) by (unfold x; destruct (Z.eqb_spec e 0); lia).
  assert (Hsig : 0 <= sig < 2 ^ 53) by (unfold sig; destruct (Z.eqb_spec e 0); lia).
  assert (U : f64_units b = sig * 2 ^ (x - 1)).
  { unfold f64_units. cbv zeta. rewrite D2, D3. unfold sig, x. destruct (Z.eqb_spec e 0); [cbn [Z.sub Z.pow]; change (2 ^ (1 - 1)) with 1; lia|reflexivity]. }
  assert (R : f64_to_f32 b = if Z.leb 897 x then Z.min f32_top ((x - 897) * 2 ^ 23 + round_shift sig 29) else round_shift sig (29 + (897 - x))).
  { unfold f64_to_f32. cbv zeta. rewrite D1, D2, D3. destruct (Z.eqb_spec e 2047); [lia|]. reflexivity. }
  assert (Ps : 0 < 2 ^ (x - 1)) by (apply Z.pow_pos_nonneg; lia).
  destruct (Z.leb_spec 897 x) as [L|L].
  - assert (Lo : 2 ^ 52 <= sig) by (unfold sig, x in *; destruct (Z.eqb_spec e 0); lia).
    assert (G : 2 ^ (x - 897) * 2 ^ 925 = 2 ^ 29 * 2 ^ (x - 1)) by (rewrite <- !Z.pow_add_r by lia; f_equal; lia).
    pose proof (round_range sig 29 (2 ^ 23) (2 ^ 24) ltac:(lia) ltac:(lia)) as Q.
    exists (x - 897), (round_shift sig 29), (2 ^ (x - 897) * 2 ^ 925).
    destruct (scale_near (round_shift sig 29) sig (2 ^ 29) (2 ^ (x - 1)) _ Ps G (round_near sig 29 ltac:(lia))) as [N1 N2].
    rewrite <- U in N1, N2. repeat split; try assumption; try lia.
    + right. rewrite U, G. split; [|lia]. nia.
    + rewrite U, G. nia.
  - assert (Pk : 2 ^ 925 = 2 ^ (29 + (897 - x)) * 2 ^ (x - 1)) by (rewrite <- Z.pow_add_r by lia; f_equal; lia).
    set (k := 29 + (897 - x)) in *. assert (Hk : 30 <= k) by lia.
    assert (K2 : 2 ^ 53 <= 2 ^ 23 * 2 ^ k). { rewrite <- Z.pow_add_r by lia. apply Z.pow_le_mono_r; lia. }
    pose proof (round_range sig k 0 (2 ^ 23) ltac:(lia) ltac:(lia)) as Q.
    exists 0, (round_shift sig k), (2 ^ 0 * 2 ^ 925).
    destruct (scale_near (round_shift sig k) sig (2 ^ k) (2 ^ (x - 1)) (2 ^ 925) Ps Pk (round_near sig k ltac:(lia))) as [N1 N2].
    rewrite <- U in N1, N2. change (2 ^ 0) with 1. rewrite Z.mul_1_l. repeat split; try assumption; try lia.
    rewrite R. unfold f32_top. rewrite Z.min_r by lia. lia.
Qed.

(** An f32 is a multiple of the distance, or below the numbers with that distance. *)
Lemma units_coarse y E : 0 <= y < f32_top -> 0 <= E ->
  (exists j, f32_units y = j * (2 ^ E * 2 ^ 925)) \/ (0 < E /\ 0 <= f32_units y < 2 ^ 23 * (2 ^ E * 2 ^ 925)).
Proof.
  unfold f32_top. intros Hy HE.
  pose proof (Z_div_mod_eq_full y (2 ^ 23)) as D. pose proof (Z.mod_pos_bound y (2 ^ 23) ltac:(lia)) as B.
  assert (He : 0 <= y / 2 ^ 23 < 255) by (split; [apply Z.div_pos; lia|apply Z.div_lt_upper_bound; lia]).
  set (e := y / 2 ^ 23) in *. set (m := y mod 2 ^ 23) in *. clearbody e m. replace y with (e * 2 ^ 23 + m) by lia. rewrite units32 by lia.
  destruct (Z.eqb_spec e 0) as [Ee|Ne].
  - destruct (Z.eq_dec E 0) as [->|N]; [left; exists m; change (2 ^ 0) with 1; lia|]. right. split; [lia|].
    assert (1 <= 2 ^ E) by (pose proof (Z.pow_pos_nonneg 2 E); lia). assert (0 < 2 ^ 925) by (apply Z.pow_pos_nonneg; lia). set (p := 2 ^ 925) in *. clearbody p. set (t := 2 ^ E) in *. clearbody t. nia.
  - destruct (Z.leb_spec (E + 1) e) as [L|L].
    + left. exists ((m + 2 ^ 23) * 2 ^ (e - 1 - E)).
      replace (2 ^ (e - 1)) with (2 ^ (e - 1 - E) * 2 ^ E) by (rewrite <- Z.pow_add_r by lia; f_equal; lia). ring.
    + right. split; [lia|]. assert (X : 2 ^ E = 2 * 2 ^ (e - 1) * 2 ^ (E - e)).
      { rewrite <- Z.mul_assoc, <- Z.pow_add_r by lia. rewrite <- Z.pow_succ_r by lia. f_equal. lia. }
      assert (1 <= 2 ^ (E - e)) by (pose proof (Z.pow_pos_nonneg 2 (E - e)); lia).
      assert (0 < 2 ^ (e - 1)) by (apply Z.pow_pos_nonneg; lia).
      assert (0 < 2 ^ 925) by (apply Z.pow_pos_nonneg; lia). rewrite X.
      set (p := 2 ^ 925) in *. clearbody p. set (t := 2 ^ (E - e)) in *. clearbody t. set (u := 2 ^ (e - 1)) in *. clearbody u. clear X D.
      assert (m + 2 ^ 23 < 2 ^ 24) by lia. assert (0 < u * p) by nia.
      split; [nia|]. assert ((m + 2 ^ 23) * (u * p) < 2 ^ 24 * (u * p)) by nia. assert (u * p <= t * (u * p)) by nia. nia.
Qed.

(** No other finite f32 is nearer; of two that are equally near it is the even one. *)
Lemma nearest b y : 0 <= b < f64_top -> 0 <= y < f32_top -> f64_to_f32 b < f32_top ->
  Z.abs (f32_units (f64_to_f32 b) - f64_units b) <= Z.abs (f32_units y - f64_units b)
  /\ (f32_units y <> f32_units (f64_to_f32 b) ->
      Z.abs (f32_units (f64_to_f32 b) - f64_units b) = Z.abs (f32_units y - f64_units b) -> Z.even (f64_to_f32 b) = true).
Proof.
  intros Hb Hy Hf. destruct (narrows b Hb) as (E & q & g & HE & Hg & Hq & R & Lo & Up & N & T).
  assert (R' : f64_to_f32 b = E * 2 ^ 23 + q) by lia. assert (HE2 : E < 254) by (unfold f32_top in *; lia).
  rewrite R' in *. clear R R'.
  assert (U : f32_units (E * 2 ^ 23 + q) = q * g) by (rewrite units_step by lia; subst g; ring).
  assert (Gp : 0 < g) by (subst g; apply Z.mul_pos_pos; apply Z.pow_pos_nonneg; lia).
  assert (Ev : Z.even q = true -> Z.even (E * 2 ^ 23 + q) = true).
  { intros X. rewrite Z.even_add, Z.even_mul, X. change (Z.even (2 ^ 23)) with true. now rewrite orb_true_r. }
  rewrite U. clear U. destruct (units_coarse y E Hy HE) as [[j J]|[E0 C]]; rewrite <- Hg in *.
  - rewrite J. clear J Lo Hg Hq HE Hf Hy Hb HE2. set (v := f64_units b) in *. clearbody v. split.
    + destruct (Z.eq_dec j q) as [->|Nj]; [lia|]. assert (g <= Z.abs (j * g - q * g)) by (replace (j * g - q * g) with ((j - q) * g) by ring; rewrite Z.abs_mul, (Z.abs_eq g) by lia; nia). lia.
    + intros Ne Eq. apply Ev, T. assert (j <> q) by (intros ->; now apply Ne).
      assert (g <= Z.abs (j * g - q * g)) by (replace (j * g - q * g) with ((j - q) * g) by ring; rewrite Z.abs_mul, (Z.abs_eq g) by lia; nia). lia.
  - destruct Lo as [->|[Lo Lq]]; [lia|]. set (v := f64_units b) in *. set (w := f32_units y) in *. clearbody v w. clear Hg Hb Hf Hy HE2.
    assert (S : Z.abs (q * g - v) < Z.abs (w - v)).
    { destruct (Z.eq_dec q (2 ^ 23)) as [->|Nq]; [lia|]. assert ((2 ^ 23 + 1) * g <= q * g) by nia. lia. }
    split; [lia|]. intros _ Eq. lia.
Qed.
(** Infinity from the middle between the largest f32 and the next number of its kind on. *)
Lemma too_large b : 0 <= b < f64_top -> (f64_to_f32 b = f32_top <-> (2 ^ 25 - 1) * 2 ^ 1177 <= f64_units b).
Proof.
  intros Hb. destruct (narrows b Hb) as (E & q & g & HE & Hg & Hq & R & Lo & Up & N & T). rewrite R. unfold f32_top.
  set (v := f64_units b) in *. clearbody v.
  destruct (Z.lt_trichotomy E 253) as [L|[->|L]].
  - assert (g <= 2 ^ 1177). { subst g. rewrite <- Z.pow_add_r by lia. apply Z.pow_le_mono_r; lia. }
    assert (Z.min (255 * 2 ^ 23) (E * 2 ^ 23 + q) <> 255 * 2 ^ 23) by lia.
    split; [congruence|]. intros V. exfalso. assert (P : 0 < 2 ^ 1177) by (apply Z.pow_pos_nonneg; lia). set (p := 2 ^ 1177) in *. clearbody p. nia.
  - assert (G : g = 2 * 2 ^ 1177). { subst g. rewrite <- Z.pow_add_r, <- Z.pow_succ_r by lia. reflexivity. }
    assert (P : 0 < 2 ^ 1177) by (apply Z.pow_pos_nonneg; lia). set (p := 2 ^ 1177) in *. clearbody p. clear Hg. subst g. split.
    + intros Y. assert (q = 2 ^ 24) by lia. subst q. lia.
    + intros V. assert (2 ^ 24 <= q); [|lia]. destruct (Z.eq_dec q (2 ^ 24 - 1)) as [->|]; [|nia].
      assert (X : Z.even (2 ^ 24 - 1) = true) by (apply T; lia). discriminate X.
  - assert (2 ^ 1179 <= g). { subst g. rewrite <- Z.pow_add_r by lia. apply Z.pow_le_mono_r; lia. }
    destruct Lo as [->|[Lo Lq]]; [lia|]. split; [|lia]. intros _. change (2 ^ 1179) with (2 ^ (2 + 1177)) in *. rewrite Z.pow_add_r in * by lia.
    assert (P : 0 < 2 ^ 1177) by (apply Z.pow_pos_nonneg; lia). set (p := 2 ^ 1177) in *. clearbody p. lia.
Qed.
(** The sign is kept. *)
Lemma narrow_sign b : 0 <= b < 2 ^ 63 -> f64_to_f32 (b + 2 ^ 63) = f64_to_f32 b + 2 ^ 31.
Proof.
  intros H. unfold f64_to_f32. cbv zeta.
  assert (E1 : (b + 2 ^ 63) / 2 ^ 63 = 1) by (rewrite <- (Z.mul_1_l (2 ^ 63)) at 1; rewrite Z.div_add, Z.div_small by lia; reflexivity).
  assert (E2 : b / 2 ^ 63 = 0) by (apply Z.div_small; lia).
  assert (E3 : ((b + 2 ^ 63) / 2 ^ 52) mod 2048 = (b / 2 ^ 52) mod 2048).
  { change (2 ^ 63) with (2048 * 2 ^ 52). rewrite Z.div_add by lia. rewrite <- (Z.mul_1_l 2048) at 1. now rewrite Z.mod_add by lia. }
  assert (E4 : (b + 2 ^ 63) mod 2 ^ 52 = b mod 2 ^ 52) by (change (2 ^ 63) with (2048 * 2 ^ 52); now rewrite Z.mod_add by lia).
  rewrite E1, E2, E3, E4. lia.
Qed.
Lemma narrow_nan b : f64_top < b < 2 ^ 63 -> f32_top < f64_to_f32 b < 2 ^ 31.
Proof.
  unfold f64_top, f32_top. intros H. pose proof (Z_div_mod_eq_full b (2 ^ 52)) as D. pose proof (Z.mod_pos_bound b (2 ^ 52) ltac:(lia)) as B.
  assert (E : b / 2 ^ 52 = 2047) by (assert (2047 <= b / 2 ^ 52 < 2048) by (split; [apply Z.div_le_lower_bound; lia|apply Z.div_lt_upper_bound; lia]); lia).
  unfold f64_to_f32. cbv zeta. rewrite E, (Z.div_small b (2 ^ 63)) by lia. change (2047 mod 2048 =? 2047) with true. cbv iota.
  destruct (Z.eqb_spec (b mod 2 ^ 52) 0); [lia|].
  set (z := b mod 2 ^ 52 / 2 ^ 29). assert (Hz : 0 <= z < 2 ^ 23) by (split; [apply Z.div_pos; lia|apply Z.div_lt_upper_bound; lia]).
  assert (0 < Z.lor z (2 ^ 22)). { assert (0 <= Z.lor z (2 ^ 22)) by (apply Z.lor_nonneg; lia). assert (Z.lor z (2 ^ 22) <> 0) by (intros X; apply Z.lor_eq_0_iff in X; lia). lia. }
  assert (Z.lor z (2 ^ 22) < 2 ^ 23).
  { apply Z.log2_lt_pow2; [assumption|]. rewrite Z.log2_lor by lia. apply Z.max_lub_lt; [|reflexivity]. destruct (Z.eq_dec z 0) as [->|]; [reflexivity|]. apply Z.log2_lt_pow2; lia. }
  lia.
Qed.
(** Widening is exact. *)
Lemma widens b : 0 <= b < f32_top -> 0 <= f32_to_f64 b < f64_top /\ f64_units (f32_to_f64 b) = f32_units b.
Proof.
  unfold f32_top, f64_top. intros H. destruct (decode32 b ltac:(lia)) as (Eb & Hs & He & Hm).
  assert (S0 : b / 2 ^ 31 = 0) by (apply Z.div_small; lia).
  assert (U : f32_units b = (if Z.eqb (f32_exp b) 0 then f32_frac b else (f32_frac b + 2 ^ 23) * 2 ^ (f32_exp b - 1)) * 2 ^ 925) by reflexivity.
  unfold f32_to_f64. cbv zeta. rewrite U. rewrite S0 in *. clear U. set (e := f32_exp b) in *. set (m := f32_frac b) in *. clearbody e m.
  destruct (Z.eqb_spec e 255); [lia|].
  assert (V : forall x y, 0 <= x < 2047 -> 0 <= y < 2 ^ 52 -> f64_units (0 * 2 ^ 63 + (x * 2 ^ 52 + y)) = if Z.eqb x 0 then y else (y + 2 ^ 52) * 2 ^ (x - 1)).
  { intros x y Hx Hy. destruct (decode64 0 x y ltac:(lia) ltac:(lia) Hy) as (_ & D2 & D3). unfold f64_units. cbv zeta. rewrite D2, D3. reflexivity. }
  destruct (Z.eqb_spec e 0) as [->|He0].
  - destruct (Z.eqb_spec m 0) as [->|Hm0]; [split; [lia|reflexivity]|].
    set (k := Z.log2 m). assert (Hk : 2 ^ k <= m < 2 ^ (k + 1)).
    { destruct (Z.log2_spec m ltac:(lia)) as [A B]. split; [exact A|]. replace (k + 1) with (Z.succ (Z.log2 m)) by (unfold k; lia). exact B. }
    assert (0 <= k) by apply Z.log2_nonneg. assert (k < 23) by (apply Z.log2_lt_pow2; lia).
    assert (Ep : 2 ^ k * 2 ^ (52 - k) = 2 ^ 52) by (rewrite <- Z.pow_add_r by lia; f_equal; lia).
    assert (Ep2 : 2 ^ (k + 1) * 2 ^ (52 - k) = 2 ^ 53) by (rewrite <- Z.pow_add_r by lia; f_equal; lia).
    assert (P : 0 < 2 ^ (52 - k)) by (apply Z.pow_pos_nonneg; lia).
    assert (Hy : 0 <= m * 2 ^ (52 - k) - 2 ^ 52 < 2 ^ 52) by (split; [nia|]; assert (m * 2 ^ (52 - k) < 2 ^ 53) by nia; lia).
    split; [lia|]. rewrite V by lia. destruct (Z.eqb_spec (874 + k) 0); [lia|].
    replace (m * 2 ^ (52 - k) - 2 ^ 52 + 2 ^ 52) with (m * 2 ^ (52 - k)) by lia. rewrite <- Z.mul_assoc, <- Z.pow_add_r by lia. f_equal. f_equal. lia.
  - split; [lia|]. rewrite V by lia. destruct (Z.eqb_spec (e + 896) 0); [lia|].
    replace (m * 2 ^ 29 + 2 ^ 52) with ((m + 2 ^ 23) * 2 ^ 29) by lia. rewrite <- !Z.mul_assoc, <- !Z.pow_add_r by lia. f_equal. f_equal. lia.
Qed.
