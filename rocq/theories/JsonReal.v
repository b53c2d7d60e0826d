(** Numbers with a decimal point: what reading them gives. *)
From Verif Require Import Base SqlVal Query Time Json JsonForm JsonSpec JsonProofs.
From Verif Require ConnStrProofs.
Open Scope Z_scope.

(** [(n / d) / 2^e] lies in [[lo, hi)]. *)
Definition within (n d e lo hi : Z) : Prop :=
  let '(a, b) := scaled n d e in lo * b <= a < hi * b.

Lemma scaled_pos n d e : 0 < n -> 0 < d -> 0 < fst (scaled n d e) /\ 0 < snd (scaled n d e).
Proof.
  intros Hn Hd. unfold scaled. destruct (Z.leb_spec 0 e); cbn [fst snd].
  - pose proof (Z.pow_pos_nonneg 2 e ltac:(lia) H). nia.
  - pose proof (Z.pow_pos_nonneg 2 (- e) ltac:(lia) ltac:(lia)). nia.
Qed.
(** One exponent down doubles the quotient. *)
Lemma scaled_down n d e : 0 < n -> 0 < d ->
  fst (scaled n d (e - 1)) * snd (scaled n d e) = 2 * fst (scaled n d e) * snd (scaled n d (e - 1)).
Proof.
  intros Hn Hd. unfold scaled. destruct (Z.leb_spec 0 e), (Z.leb_spec 0 (e - 1)); cbn [fst snd]; try lia.
  - replace (2 ^ e) with (2 * 2 ^ (e - 1)) by (rewrite <- Z.pow_succ_r by lia; f_equal; lia). ring.
  - replace e with 0 by lia. change (2 ^ 0) with 1. change (2 ^ - (0 - 1)) with 2. ring.
  - replace (2 ^ (- (e - 1))) with (2 * 2 ^ (- e)) by (rewrite <- Z.pow_succ_r by lia; f_equal; lia). ring.
Qed.
Lemma scaled_ratio n d n' d' e : 0 < n -> 0 < d -> 0 < n' -> 0 < d' -> n * d' = n' * d ->
  fst (scaled n d e) * snd (scaled n' d' e) = fst (scaled n' d' e) * snd (scaled n d e).
Proof.
  intros Hn Hd Hn' Hd' E. unfold scaled. destruct (Z.leb_spec 0 e); cbn [fst snd].
  - replace (n * (d' * 2 ^ e)) with (n * d' * 2 ^ e) by ring. rewrite E. ring.
  - replace (n * 2 ^ (- e) * d') with (n * d' * 2 ^ (- e)) by ring. rewrite E. ring.
Qed.
Lemma div_ratio a b c d : 0 < b -> 0 < d -> 0 <= a -> 0 <= c -> a * d = c * b -> a / b = c / d.
Proof.
  intros Hb Hd Ha Hc E. rewrite <- (Z.div_mul_cancel_r a b d), <- (Z.div_mul_cancel_r c d b) by lia.
  rewrite E. f_equal. lia.
Qed.

(** The exponent before the smallest one is imposed. *)
Definition top_exp (n d : Z) : Z :=
  let e := Z.log2 n - Z.log2 d - 52 in
  let '(a, b) := scaled n d e in
  if Z.ltb (a / b) (2 ^ 52) then e - 1 else e.
Lemma ulp_top n d : ulp_exp n d = Z.max (-1074) (top_exp n d).
Proof. unfold ulp_exp, top_exp. now destruct (scaled n d _). Qed.
Lemma top_within n d : 0 < n -> 0 < d -> within n d (top_exp n d) (2 ^ 52) (2 ^ 53).
Proof.
  intros Hn Hd. unfold top_exp. set (e := Z.log2 n - Z.log2 d - 52).
  assert (W : within n d e (2 ^ 51) (2 ^ 53)).
  { unfold within, scaled, e.
    pose proof (Z.log2_spec n Hn) as [N1 N2]. pose proof (Z.log2_spec d Hd) as [D1 D2].
    pose proof (Z.log2_nonneg n). pose proof (Z.log2_nonneg d).
    set (x := Z.log2 n) in *. set (y := Z.log2 d) in *.
    destruct (Z.leb_spec 0 (x - y - 52)).
    - split.
      + apply Z.le_trans with (2 ^ x); [|exact N1].
        apply Z.le_trans with (2 ^ 51 * (2 ^ Z.succ y * 2 ^ (x - y - 52))).
        * apply Z.mul_le_mono_nonneg_l; [lia|]. apply Z.mul_le_mono_nonneg_r; [|lia].
          apply Z.pow_nonneg. lia.
        * rewrite <- !Z.pow_add_r by lia. apply Z.pow_le_mono_r; lia.
      + apply Z.lt_le_trans with (2 ^ Z.succ x); [exact N2|].
        apply Z.le_trans with (2 ^ 53 * (2 ^ y * 2 ^ (x - y - 52))).
        * rewrite <- !Z.pow_add_r by lia. apply Z.pow_le_mono_r; lia.
        * apply Z.mul_le_mono_nonneg_l; [lia|]. apply Z.mul_le_mono_nonneg_r; [|lia].
          apply Z.pow_nonneg. lia.
    - split.
      + apply Z.le_trans with (2 ^ 51 * 2 ^ Z.succ y); [lia|].
        apply Z.le_trans with (2 ^ x * 2 ^ (- (x - y - 52))).
        * rewrite <- !Z.pow_add_r by lia. apply Z.pow_le_mono_r; lia.
        * apply Z.mul_le_mono_nonneg_r; [|lia]. apply Z.pow_nonneg. lia.
      + apply Z.lt_le_trans with (2 ^ Z.succ x * 2 ^ (- (x - y - 52))).
        * apply Z.mul_lt_mono_pos_r; [|lia]. apply Z.pow_pos_nonneg; lia.
        * apply Z.le_trans with (2 ^ 53 * 2 ^ y); [|lia].
          rewrite <- !Z.pow_add_r by lia. apply Z.pow_le_mono_r; lia. }
  pose proof (scaled_down n d e Hn Hd) as Dn. pose proof (scaled_pos n d e Hn Hd) as [P1 P2].
  pose proof (scaled_pos n d (e - 1) Hn Hd) as [Q1 Q2].
  unfold within in *. destruct (scaled n d e) as [a b] eqn:E1. cbn [fst snd] in *.
  destruct (Z.ltb_spec (a / b) (2 ^ 52)) as [L|L].
  - destruct (scaled n d (e - 1)) as [a' b'] eqn:E2. cbn [fst snd] in *.
    assert (a < 2 ^ 52 * b) by (pose proof (Z.mul_succ_div_gt a b ltac:(lia)); nia).
    split; apply (Z.mul_le_mono_pos_r _ _ b) || apply (Z.mul_lt_mono_pos_r b); try lia;
      rewrite Dn; nia.
  - rewrite E1. split; [|lia]. pose proof (Z.mul_div_le a b ltac:(lia)). nia.
Qed.

(** Further down by [k] multiplies the quotient by [2^k]. *)
Lemma scaled_downs n d e k : 0 < n -> 0 < d -> 0 <= k ->
  fst (scaled n d (e - k)) * snd (scaled n d e) = 2 ^ k * fst (scaled n d e) * snd (scaled n d (e - k)).
Proof.
  intros Hn Hd Hk. revert k Hk. apply natlike_ind.
  - rewrite Z.sub_0_r. change (2 ^ 0) with 1. ring.
  - intros k Hk IH. pose proof (scaled_down n d (e - k) Hn Hd) as D.
    replace (e - k - 1) with (e - Z.succ k) in D by lia. rewrite Z.pow_succ_r by lia.
    pose proof (scaled_pos n d (e - k) Hn Hd) as [P1 P2].
    apply (Z.mul_reg_r _ _ (snd (scaled n d (e - k)))); [lia|].
    transitivity (fst (scaled n d (e - Z.succ k)) * snd (scaled n d (e - k)) * snd (scaled n d e)); [ring|].
    rewrite D.
    transitivity (2 * (fst (scaled n d (e - k)) * snd (scaled n d e)) * snd (scaled n d (e - Z.succ k))); [ring|].
    rewrite IH. ring.
Qed.
Lemma within_unique n d e e' : 0 < n -> 0 < d -> within n d e (2 ^ 52) (2 ^ 53) -> within n d e' (2 ^ 52) (2 ^ 53) -> e = e'.
Proof.
  intros Hn Hd.
  assert (G : forall e e', within n d e (2 ^ 52) (2 ^ 53) -> within n d e' (2 ^ 52) (2 ^ 53) -> e' < e -> False).
  { clear e e'. intros e e' W W' L. pose proof (scaled_downs n d e (e - e') Hn Hd ltac:(lia)) as D.
    replace (e - (e - e')) with e' in D by lia.
    pose proof (scaled_pos n d e Hn Hd) as [P1 P2]. pose proof (scaled_pos n d e' Hn Hd) as [Q1 Q2].
    unfold within in *. destruct (scaled n d e) as [a b]. destruct (scaled n d e') as [a' b']. cbn [fst snd] in *.
    assert (2 <= 2 ^ (e - e')) by (change 2 with (2 ^ 1) at 1; apply Z.pow_le_mono_r; lia).
    set (p := 2 ^ (e - e')) in *.
    assert (a' * b < 2 ^ 53 * b' * b) by (apply Z.mul_lt_mono_pos_r; lia).
    assert (2 * (2 ^ 52 * b) * b' <= p * a * b') by (apply Z.mul_le_mono_nonneg_r; [lia|]; apply Z.mul_le_mono_nonneg; lia).
    lia. }
  intros W W'. destruct (Z.lt_trichotomy e e') as [L|[E|L]]; [exfalso; eauto|exact E|exfalso; eauto].
Qed.
Lemma within_ratio n d n' d' e lo hi : 0 < n -> 0 < d -> 0 < n' -> 0 < d' -> n * d' = n' * d ->
  within n d e lo hi -> within n' d' e lo hi.
Proof.
  intros Hn Hd Hn' Hd' E W. pose proof (scaled_ratio n d n' d' e Hn Hd Hn' Hd' E) as R.
  pose proof (scaled_pos n d e Hn Hd) as [P1 P2]. pose proof (scaled_pos n' d' e Hn' Hd') as [Q1 Q2].
  unfold within in *. destruct (scaled n d e) as [a b]. destruct (scaled n' d' e) as [a' b']. cbn [fst snd] in *.
  split.
  - apply (Z.mul_le_mono_pos_r _ _ b); [lia|]. rewrite <- R.
    replace (lo * b' * b) with (lo * b * b') by ring. apply Z.mul_le_mono_nonneg_r; lia.
  - apply (Z.mul_lt_mono_pos_r b); [lia|]. rewrite <- R.
    replace (hi * b' * b) with (hi * b * b') by ring. apply Z.mul_lt_mono_pos_r; lia.
Qed.
Lemma ulp_ratio n d n' d' : 0 < n -> 0 < d -> 0 < n' -> 0 < d' -> n * d' = n' * d -> ulp_exp n d = ulp_exp n' d'.
Proof.
  intros Hn Hd Hn' Hd' E. rewrite !ulp_top. f_equal. apply (within_unique n' d'); auto.
  - eapply within_ratio; [| | | |exact E|]; auto. now apply top_within.
  - now apply top_within.
Qed.
Lemma div_even_ratio a b c d : 0 < b -> 0 < d -> 0 <= a -> 0 <= c -> a * d = c * b -> div_even a b = div_even c d.
Proof.
  intros Hb Hd Ha Hc E. unfold div_even. rewrite (div_ratio a b c d Hb Hd Ha Hc E).
  assert (R : (a mod b) * d = (c mod d) * b).
  { rewrite !Z.mod_eq by lia. rewrite (div_ratio a b c d Hb Hd Ha Hc E).
    rewrite !Z.mul_sub_distr_r, E. ring. }
  assert (Z.ltb b (2 * (a mod b)) = Z.ltb d (2 * (c mod d))) as ->.
  { apply eq_true_iff_eq. rewrite !Z.ltb_lt. split; intros L.
    - apply (Z.mul_lt_mono_pos_r b); [lia|]. replace (2 * (c mod d) * b) with (2 * (a mod b) * d) by lia.
      rewrite Z.mul_comm. apply Z.mul_lt_mono_pos_r; lia.
    - apply (Z.mul_lt_mono_pos_r d); [lia|]. replace (2 * (a mod b) * d) with (2 * (c mod d) * b) by lia.
      rewrite Z.mul_comm. apply Z.mul_lt_mono_pos_r; lia. }
  assert (Z.eqb b (2 * (a mod b)) = Z.eqb d (2 * (c mod d))) as ->; [|reflexivity].
  apply eq_true_iff_eq. rewrite !Z.eqb_eq. split; intros L.
  - apply (Z.mul_reg_r _ _ b); [lia|]. replace (2 * (c mod d) * b) with (2 * (a mod b) * d) by lia. rewrite <- L. ring.
  - apply (Z.mul_reg_r _ _ d); [lia|]. replace (2 * (a mod b) * d) with (2 * (c mod d) * b) by lia. rewrite <- L. ring.
Qed.
(** The f64 nearest to a quotient depends on the quotient only. *)
Lemma ratio_eq n d n' d' : 0 <= n -> 0 < d -> 0 <= n' -> 0 < d' -> n * d' = n' * d -> f64_ratio n d = f64_ratio n' d'.
Proof.
  intros Hn Hd Hn' Hd' E. unfold f64_ratio.
  destruct (Z.eqb_spec n 0) as [->|Nn]; destruct (Z.eqb_spec n' 0) as [->|Nn']; [reflexivity|nia|nia|].
  - rewrite (ulp_ratio n d n' d') by (auto; lia). set (e := ulp_exp n' d').
    pose proof (scaled_ratio n d n' d' e ltac:(lia) Hd ltac:(lia) Hd' E) as R.
    pose proof (scaled_pos n d e ltac:(lia) Hd) as [P1 P2]. pose proof (scaled_pos n' d' e ltac:(lia) Hd') as [Q1 Q2].
    destruct (scaled n d e) as [a b]. destruct (scaled n' d' e) as [a' b']. cbn [fst snd] in *.
    rewrite (div_even_ratio a b a' b') by (auto; lia). reflexivity.
Qed.

(** * Integers below [2^53] *)
Lemma int_parts z : 0 < z < 2 ^ 53 -> let '(m, e) := f64_parts (f64_of_int z) in
  0 < m /\ e <= 0 /\ z * 2 ^ (- e) = m.
Proof.
  intros Hz. unfold f64_of_int, f64_ratio. destruct (Z.eqb_spec z 0); [lia|].
  pose proof (Z.log2_spec z ltac:(lia)) as [L1 L2]. pose proof (Z.log2_nonneg z) as L0.
  assert (L3 : Z.log2 z <= 52).
  { assert (Z.log2 z < 53); [|lia]. apply (Z.pow_lt_mono_r_iff 2); lia. }
  assert (E : ulp_exp z 1 = Z.log2 z - 52).
  { rewrite ulp_top.
    assert (top_exp z 1 = Z.log2 z - 52) as ->; [|lia].
    apply (within_unique z 1); [lia|lia|apply top_within; lia|].
    unfold within, scaled. destruct (Z.leb_spec 0 (Z.log2 z - 52)).
    - replace (Z.log2 z - 52) with 0 by lia. replace (Z.log2 z) with 52 in L1, L2 by lia. cbn in *. lia.
    - split.
      + rewrite Z.mul_1_r. apply Z.le_trans with (2 ^ Z.log2 z * 2 ^ (- (Z.log2 z - 52))).
        * rewrite <- Z.pow_add_r by lia. apply Z.pow_le_mono_r; lia.
        * apply Z.mul_le_mono_nonneg_r; [|lia]. apply Z.pow_nonneg. lia.
      + apply Z.lt_le_trans with (2 ^ Z.succ (Z.log2 z) * 2 ^ (- (Z.log2 z - 52))).
        * apply Z.mul_lt_mono_pos_r; [|lia]. apply Z.pow_pos_nonneg; lia.
        * rewrite <- Z.pow_add_r by lia. rewrite Z.mul_1_r. apply Z.pow_le_mono_r; lia. }
  rewrite E. set (e := Z.log2 z - 52) in *.
  assert (S : scaled z 1 e = (z * 2 ^ (- e), 1)).
  { unfold scaled. destruct (Z.leb_spec 0 e); [|reflexivity]. replace e with 0 by lia. cbn. f_equal; lia. }
  rewrite S. set (m := z * 2 ^ (- e)).
  assert (D : div_even m 1 = m).
  { unfold div_even. rewrite Z.div_1_r, Z.mod_1_r. reflexivity. }
  rewrite D.
  assert (B : 2 ^ 52 <= m < 2 ^ 53).
  { pose proof (top_within z 1 ltac:(lia) ltac:(lia)) as W.
    replace (top_exp z 1) with e in W by (rewrite ulp_top in E; lia).
    unfold within in W. rewrite S in W. fold m in W. lia. }
  rewrite Z.min_r by (unfold f64_inf; nia).
  unfold f64_parts.
  assert (X : ((e + 1074) * 2 ^ 52 + m) / 2 ^ 52 = e + 1075).
  { replace ((e + 1074) * 2 ^ 52 + m) with ((m - 2 ^ 52) + (e + 1075) * 2 ^ 52) by ring.
    rewrite Z.div_add by lia. rewrite Z.div_small by lia. reflexivity. }
  assert (Y : ((e + 1074) * 2 ^ 52 + m) mod 2 ^ 52 = m - 2 ^ 52).
  { replace ((e + 1074) * 2 ^ 52 + m) with ((m - 2 ^ 52) + (e + 1075) * 2 ^ 52) by ring.
    rewrite Z.mod_add by lia. apply Z.mod_small. lia. }
  rewrite X, Y. destruct (Z.eqb_spec (e + 1075) 0); [lia|].
  replace (m - 2 ^ 52 + 2 ^ 52) with m by ring. replace (e + 1075 - 1075) with e by ring.
  repeat split; try lia.
Qed.

Lemma pow2_up_eq e : pow2_up e = 2 ^ Z.max e 0.
Proof. unfold pow2_up. destruct (Z.leb_spec 0 e); [now rewrite Z.max_l by lia|now rewrite Z.max_r by lia]. Qed.
Lemma pow2_down_eq e : pow2_down e = 2 ^ Z.max (- e) 0.
Proof. unfold pow2_down. destruct (Z.leb_spec 0 e); [now rewrite Z.max_r by lia|now rewrite Z.max_l by lia]. Qed.
Lemma pow2_pos e : 0 < pow2_up e /\ 0 < pow2_down e.
Proof. rewrite pow2_up_eq, pow2_down_eq. split; apply Z.pow_pos_nonneg; lia. Qed.
Lemma pow2_add e q : pow2_up (e + q) * (pow2_down e * pow2_down q) = pow2_down (e + q) * (pow2_up e * pow2_up q).
Proof. rewrite !pow2_up_eq, !pow2_down_eq. rewrite <- !Z.pow_add_r by lia. f_equal. lia. Qed.
Lemma pow2_sub e q : pow2_up (e - q) * (pow2_down e * pow2_up q) = pow2_down (e - q) * (pow2_up e * pow2_down q).
Proof. rewrite !pow2_up_eq, !pow2_down_eq. rewrite <- !Z.pow_add_r by lia. f_equal. lia. Qed.

(** [b] is exactly the integer [z]. *)
Definition exactly (b : f64) (z : Z) : Prop :=
  let '(m, e) := f64_parts b in 0 < m /\ m * pow2_up e = z * pow2_down e.
Lemma int_exact z : 0 < z < 2 ^ 53 -> exactly (f64_of_int z) z.
Proof.
  intros H. pose proof (int_parts z H) as P. unfold exactly. destruct (f64_parts (f64_of_int z)) as [m e].
  destruct P as (P1 & P2 & P3). split; [exact P1|]. rewrite pow2_up_eq, pow2_down_eq, Z.max_r, Z.max_l by lia.
  change (2 ^ 0) with 1. lia.
Qed.
Lemma pow10_exact k : 0 <= k <= 22 -> exactly (pow10 k) (10 ^ k).
Proof.
  intros H. assert (G : k = 0 \/ k = 1 \/ k = 2 \/ k = 3 \/ k = 4 \/ k = 5 \/ k = 6 \/ k = 7 \/ k = 8 \/ k = 9 \/ k = 10
    \/ k = 11 \/ k = 12 \/ k = 13 \/ k = 14 \/ k = 15 \/ k = 16 \/ k = 17 \/ k = 18 \/ k = 19 \/ k = 20 \/ k = 21 \/ k = 22) by lia.
  repeat destruct G as [->|G]; [..|subst k]; vm_compute; split; reflexivity.
Qed.
Lemma mul_exact a b x y : exactly a x -> exactly b y -> 0 < x -> 0 < y -> f64_mul a b = f64_ratio (x * y) 1.
Proof.
  unfold exactly, f64_mul. destruct (f64_parts a) as [m e], (f64_parts b) as [n q]. intros [Hm Ea] [Hn Eb] Hx Hy.
  pose proof (pow2_pos (e + q)) as [U1 D1]. pose proof (pow2_pos e) as [U2 D2]. pose proof (pow2_pos q) as [U3 D3].
  apply ratio_eq; [|lia| |lia|].
  - apply Z.lt_le_incl, Z.mul_pos_pos; [apply Z.mul_pos_pos|]; lia.
  - apply Z.lt_le_incl, Z.mul_pos_pos; lia.
  - apply (Z.mul_reg_r _ _ (pow2_down e * pow2_down q)); [apply Z.neq_sym, Z.lt_neq, Z.mul_pos_pos; lia|].
    transitivity (m * n * (pow2_up (e + q) * (pow2_down e * pow2_down q))); [ring|].
    rewrite pow2_add.
    transitivity ((m * pow2_up e) * (n * pow2_up q) * pow2_down (e + q)); [ring|].
    rewrite Ea, Eb. ring.
Qed.
Lemma div_exact a b x y : exactly a x -> exactly b y -> 0 < x -> 0 < y -> f64_div a b = f64_ratio x y.
Proof.
  unfold exactly, f64_div. destruct (f64_parts a) as [m e], (f64_parts b) as [n q]. intros [Hm Ea] [Hn Eb] Hx Hy.
  pose proof (pow2_pos (e - q)) as [U1 D1]. pose proof (pow2_pos e) as [U2 D2]. pose proof (pow2_pos q) as [U3 D3].
  apply ratio_eq; [|apply Z.mul_pos_pos; lia|lia|lia|].
  - apply Z.lt_le_incl, Z.mul_pos_pos; lia.
  - apply (Z.mul_reg_r _ _ (pow2_down e * pow2_down q)); [apply Z.neq_sym, Z.lt_neq, Z.mul_pos_pos; lia|].
    transitivity (m * pow2_up (e - q) * pow2_down e * (y * pow2_down q)); [ring|]. rewrite <- Eb.
    transitivity (m * n * (pow2_up (e - q) * (pow2_down e * pow2_up q))); [ring|].
    rewrite pow2_sub.
    transitivity ((m * pow2_up e) * n * (pow2_down (e - q) * pow2_down q)); [ring|].
    rewrite Ea. ring.
Qed.
Lemma zero_parts : f64_parts (f64_of_int 0) = (0, -1074).
Proof. reflexivity. Qed.
Lemma ratio_zero d : f64_ratio 0 d = 0.
Proof. reflexivity. Qed.
Lemma ratio_not_inf n : 0 <= n < 2 ^ 53 * 10 ^ 22 -> f64_ratio n 1 <> f64_inf.
Proof.
  intros H. unfold f64_ratio. destruct (Z.eqb_spec n 0); [unfold f64_inf; lia|].
  assert (T : ulp_exp n 1 <= 900).
  { rewrite ulp_top. apply Z.max_lub; [lia|]. unfold top_exp.
    assert (Z.log2 n <= 900).
    { apply Z.lt_le_incl. apply Z.log2_lt_pow2; [lia|]. apply Z.lt_trans with (2 ^ 53 * 10 ^ 22); [lia|reflexivity]. }
    change (Z.log2 1) with 0. destruct (scaled n 1 _) as [a b]. destruct (Z.ltb (a / b) (2 ^ 52)); lia. }
  set (e := ulp_exp n 1) in *.
  assert (D : let '(a, b) := scaled n 1 e in div_even a b <= 2 ^ 53).
  { assert (W : let '(a, b) := scaled n 1 e in a < 2 ^ 53 * b).
    { pose proof (top_within n 1 ltac:(lia) ltac:(lia)) as W. unfold e. rewrite ulp_top.
      destruct (Z.max_spec (-1074) (top_exp n 1)) as [[L ->]|[L ->]].
      - unfold within in W. destruct (scaled n 1 (top_exp n 1)). lia.
      - pose proof (scaled_downs n 1 (-1074) (-1074 - top_exp n 1) ltac:(lia) ltac:(lia) ltac:(lia)) as S.
        replace (-1074 - (-1074 - top_exp n 1)) with (top_exp n 1) in S by lia.
        pose proof (scaled_pos n 1 (-1074) ltac:(lia) ltac:(lia)) as [P1 P2].
        pose proof (scaled_pos n 1 (top_exp n 1) ltac:(lia) ltac:(lia)) as [Q1 Q2].
        unfold within in W. destruct (scaled n 1 (-1074)) as [a b]. destruct (scaled n 1 (top_exp n 1)) as [a' b'].
        cbn [fst snd] in *. set (p := 2 ^ (-1074 - top_exp n 1)) in *.
        assert (1 <= p) by (assert (0 < p) by (apply Z.pow_pos_nonneg; lia); lia).
        apply (Z.mul_lt_mono_pos_r b'); [lia|].
        apply Z.le_lt_trans with (p * a * b'); [apply Z.mul_le_mono_nonneg_r; nia|]. rewrite <- S.
        replace (2 ^ 53 * b * b') with (2 ^ 53 * b' * b) by ring. apply Z.mul_lt_mono_pos_r; lia. }
    pose proof (scaled_pos n 1 e ltac:(lia) ltac:(lia)) as [P1 P2].
    destruct (scaled n 1 e) as [a b]. cbn [fst snd] in *. unfold div_even.
    assert (a / b < 2 ^ 53) by (apply Z.div_lt_upper_bound; lia).
    destruct (Z.ltb b (2 * (a mod b)) || _); lia. }
  destruct (scaled n 1 e) as [a b]. unfold f64_inf in *. lia.
Qed.

(** Reading a number of at most 53 bits, up to 22 decimals or zeros: the f64 nearest to
    it. *)
Theorem parts_nearest pos sig k : 0 <= sig < 2 ^ 53 -> 0 <= k <= 22 ->
  from_parts pos sig k = Some (JReal (f64_signed pos (f64_ratio (sig * 10 ^ k) 1)))
  /\ from_parts pos sig (- k) = Some (JReal (f64_signed pos (f64_ratio sig (10 ^ k)))).
Proof.
  intros Hs Hk. unfold from_parts, scale_loop.
  replace (Z.leb (Z.abs k) 308) with true by (symmetry; apply Z.leb_le; lia).
  replace (Z.leb (Z.abs (- k)) 308) with true by (symmetry; apply Z.leb_le; lia).
  replace (Z.leb 0 k) with true by (symmetry; apply Z.leb_le; lia).
  pose proof (Z.pow_pos_nonneg 10 k ltac:(lia) ltac:(lia)) as P.
  assert (M : f64_mul (f64_of_int sig) (pow10 k) = f64_ratio (sig * 10 ^ k) 1).
  { destruct (Z.eqb_spec sig 0) as [->|N].
    - unfold f64_mul. rewrite zero_parts. destruct (f64_parts (pow10 k)). reflexivity.
    - apply mul_exact; [apply int_exact; lia|now apply pow10_exact|lia|lia]. }
  rewrite M. assert (f64_ratio (sig * 10 ^ k) 1 <> f64_inf) as F.
  { apply ratio_not_inf. split; [apply Z.mul_nonneg_nonneg; lia|].
    apply Z.lt_le_trans with (2 ^ 53 * 10 ^ k); [apply Z.mul_lt_mono_pos_r; lia|].
    apply Z.mul_le_mono_nonneg_l; [lia|]. apply Z.pow_le_mono_r; lia. }
  apply Z.eqb_neq in F. rewrite F. split; [reflexivity|].
  destruct (Z.eqb_spec k 0) as [->|Nk].
  - change (- 0) with 0. change (Z.leb 0 0) with true. cbv iota. change (10 ^ 0) with 1 in *. rewrite Z.mul_1_r in *.
    rewrite M, F. reflexivity.
  - replace (Z.leb 0 (- k)) with false by (symmetry; apply Z.leb_gt; lia). rewrite Z.opp_involutive.
    assert (f64_div (f64_of_int sig) (pow10 k) = f64_ratio sig (10 ^ k)) as ->; [|reflexivity].
    destruct (Z.eqb_spec sig 0) as [->|N].
    + unfold f64_div. rewrite zero_parts. destruct (f64_parts (pow10 k)). reflexivity.
    + apply div_exact; [apply int_exact; lia|now apply pow10_exact|lia|lia].
Qed.

(** * The text of such a number *)
Lemma digit_of_pad z : 0 <= z < 10 -> digit (Time.digit_char z) = Some z.
Proof.
  intros H. assert (G : z = 0 \/ z = 1 \/ z = 2 \/ z = 3 \/ z = 4 \/ z = 5 \/ z = 6 \/ z = 7 \/ z = 8 \/ z = 9) by lia.
  repeat destruct G as [->|G]; [..|subst z]; reflexivity.
Qed.
Lemma take_pad w : forall acc i z s, 0 <= acc -> 0 <= z < 10 ^ Z.of_nat w -> acc * 10 ^ Z.of_nat w + z <= u64_max ->
  take_digits acc i (pad w z ++ s) = take_digits (acc * 10 ^ Z.of_nat w + z) (i + Z.of_nat w) s.
Proof.
  induction w as [|w IH]; intros acc i z s Ha Hz Hu.
  - change (10 ^ Z.of_nat 0) with 1 in *. cbn [pad append]. f_equal; lia.
  - rewrite pow10_S in *. rewrite pad_S. pose proof (Z.div_mod z 10 ltac:(lia)) as D.
    pose proof (Z.mod_pos_bound z 10 ltac:(lia)) as M.
    set (P := 10 ^ Z.of_nat w) in *.
    assert (0 <= z / 10 < P) by (split; [apply Z.div_pos; lia|apply Z.div_lt_upper_bound; lia]).
    rewrite IH by (fold P; nia). fold P. cbn [take_digits]. rewrite (digit_of_pad (z mod 10) M).
    replace ((acc * P + z / 10) * 10 + z mod 10) with (acc * (10 * P) + z) by lia.
    replace (Z.ltb u64_max (acc * (10 * P) + z)) with false by (symmetry; apply Z.ltb_ge; lia).
    f_equal. lia.
Qed.
Theorem decimal_reads pos a k f : 0 <= a -> (1 <= k <= 22)%nat -> 0 <= f < 10 ^ Z.of_nat k ->
  a * 10 ^ Z.of_nat k + f < 2 ^ 53 ->
  read_number (decimal_text pos a k f)
  = Some (JReal (f64_signed pos (f64_ratio (a * 10 ^ Z.of_nat k + f) (10 ^ Z.of_nat k))), ""%string).
Proof.
  intros Ha Hk Hf Hs. pose proof (Z.pow_pos_nonneg 10 (Z.of_nat k) ltac:(lia) ltac:(lia)) as P.
  set (sig := a * 10 ^ Z.of_nat k + f) in *.
  assert (S0 : 0 <= sig) by (unfold sig; nia).
  assert (R : read_rest pos a ("." ++ pad k f) = Some (JReal (f64_signed pos (f64_ratio sig (10 ^ Z.of_nat k))), ""%string)).
  { cbn [append read_rest]. change (Ascii.eqb "." ".") with true. cbv iota. unfold read_decimal.
    rewrite <- (ConnStrProofs.sapp_nil (pad k f)).
    rewrite take_pad by (try lia; fold sig; unfold u64_max; lia). fold sig. cbn [take_digits].
    destruct (Z.eqb_spec (0 + Z.of_nat k) 0); [lia|]. cbn [after_digits].
    replace (0 - (0 + Z.of_nat k)) with (- Z.of_nat k) by lia.
    rewrite (proj2 (parts_nearest pos sig (Z.of_nat k) ltac:(lia) ltac:(lia))). reflexivity. }
  assert (U : read_unsigned pos (dec a ++ "." ++ pad k f) = Some (JReal (f64_signed pos (f64_ratio sig (10 ^ Z.of_nat k))), ""%string)).
  { unfold dec. destruct a as [|p|p]; [|..|lia].
    - change (DecimalString.NilEmpty.string_of_int (Z.to_int 0)) with "0"%string. exact R.
    - cbn [Z.to_int DecimalString.NilEmpty.string_of_int]. rewrite digits_read; [exact R| |reflexivity].
      unfold u64_max. unfold sig in *. nia. }
  unfold decimal_text. destruct pos.
  - change ("" ++ dec a ++ "." ++ pad k f)%string with (dec a ++ "." ++ pad k f)%string.
    destruct (dec a ++ "." ++ pad k f)%string as [|c t] eqn:E; [discriminate|].
    cbn [read_number]. destruct (Ascii.eqb_spec c "-") as [->|_]; [|exact U].
    cbn in U. discriminate.
  - exact U.
Qed.

(** * The nearest f64 *)

Lemma scaled_pow2 n d e : scaled n d e = (n * pow2_down e, d * pow2_up e).
Proof. unfold scaled, pow2_up, pow2_down. destruct (Z.leb_spec 0 e); f_equal; lia. Qed.
Lemma div_even_near a b q : 0 < b -> Z.abs (a - div_even a b * b) <= Z.abs (a - q * b).
Proof.
  intros Hb. unfold div_even. pose proof (Z.div_mod a b ltac:(lia)) as D. pose proof (Z.mod_pos_bound a b Hb) as M.
  set (x := a / b) in *. set (r := a mod b) in *. clearbody x r. subst a.
  assert (Q : q <= x \/ x + 1 <= q) by lia.
  destruct (Z.ltb_spec b (2 * r)) as [L|L]; cbn [orb].
  - replace (b * x + r - (x + 1) * b) with (r - b) by ring. destruct Q; nia.
  - destruct (Z.eqb_spec b (2 * r)) as [E|E]; cbn [andb].
    + destruct (Z.odd x).
      * replace (b * x + r - (x + 1) * b) with (r - b) by ring. destruct Q; nia.
      * replace (b * x + r - x * b) with r by ring. destruct Q; nia.
    + replace (b * x + r - x * b) with r by ring. destruct Q; nia.
Qed.
Lemma pow2_move e e' : e <= e' -> exists p, 0 < p /\ pow2_up e' * pow2_down e = p * (pow2_up e * pow2_down e').
Proof.
  intros H. exists (2 ^ (e' - e)). split; [apply Z.pow_pos_nonneg; lia|].
  rewrite !pow2_up_eq, !pow2_down_eq. rewrite <- !Z.pow_add_r by lia. f_equal. lia.
Qed.

(** The parts of the result: the quotient rounded at its exponent. *)
Lemma ulp_small n d : 0 < n -> 0 < d -> fst (scaled n d (ulp_exp n d)) < 2 ^ 53 * snd (scaled n d (ulp_exp n d)).
Proof.
  intros Hn Hd. pose proof (top_within n d Hn Hd) as W. rewrite ulp_top.
  destruct (Z.max_spec (-1074) (top_exp n d)) as [[L ->]|[L ->]].
  - unfold within in W. destruct (scaled n d (top_exp n d)). cbn [fst snd]. lia.
  - pose proof (scaled_downs n d (-1074) (-1074 - top_exp n d) Hn Hd ltac:(lia)) as S.
    replace (-1074 - (-1074 - top_exp n d)) with (top_exp n d) in S by lia.
    pose proof (scaled_pos n d (-1074) Hn Hd) as [P1 P2].
    pose proof (scaled_pos n d (top_exp n d) Hn Hd) as [Q1 Q2].
    unfold within in W. destruct (scaled n d (-1074)) as [a b]. destruct (scaled n d (top_exp n d)) as [a' b'].
    cbn [fst snd] in *. set (p := 2 ^ (-1074 - top_exp n d)) in *.
    assert (1 <= p) by (assert (0 < p) by (apply Z.pow_pos_nonneg; lia); lia).
    apply (Z.mul_lt_mono_pos_r b'); [lia|].
    apply Z.le_lt_trans with (p * a * b'); [apply Z.mul_le_mono_nonneg_r; nia|]. rewrite <- S.
    replace (2 ^ 53 * b * b') with (2 ^ 53 * b' * b) by ring. apply Z.mul_lt_mono_pos_r; lia.
Qed.
Lemma ulp_big n d : 0 < n -> 0 < d -> ulp_exp n d = -1074
  \/ 2 ^ 52 * snd (scaled n d (ulp_exp n d)) <= fst (scaled n d (ulp_exp n d)).
Proof.
  intros Hn Hd. pose proof (top_within n d Hn Hd) as W. rewrite ulp_top.
  destruct (Z.max_spec (-1074) (top_exp n d)) as [[L ->]|[L ->]]; [|now left].
  right. unfold within in W. destruct (scaled n d (top_exp n d)). cbn [fst snd]. lia.
Qed.
Lemma div_even_range a b lo hi : 0 < b -> lo * b <= a < hi * b -> lo <= div_even a b <= hi.
Proof.
  intros Hb [H1 H2]. unfold div_even. assert (lo <= a / b) by (apply Z.div_le_lower_bound; lia).
  assert (a / b < hi) by (apply Z.div_lt_upper_bound; lia).
  destruct (Z.ltb b (2 * (a mod b)) || _); lia.
Qed.
(** The f64 whose number is [q * 2^e] after rounding. *)
Lemma ratio_value n d : 0 < n -> 0 < d -> f64_ratio n d <> f64_inf ->
  let '(m, x) := f64_parts (f64_ratio n d) in let e := ulp_exp n d in
  let q := div_even (n * pow2_down e) (d * pow2_up e) in
  -1074 <= e /\ ((m = q /\ x = e) \/ (m = 2 ^ 52 /\ q = 2 ^ 53 /\ x = e + 1)).
Proof.
  intros Hn Hd Hi. assert (Ee : -1074 <= ulp_exp n d) by (rewrite ulp_top; lia).
  pose proof (ulp_small n d Hn Hd) as Sm. pose proof (ulp_big n d Hn Hd) as Bg.
  pose proof (scaled_pos n d (ulp_exp n d) Hn Hd) as [P1 P2].
  unfold f64_ratio in *. destruct (Z.eqb_spec n 0); [lia|]. set (e := ulp_exp n d) in *.
  rewrite scaled_pow2 in *. cbn [fst snd] in *. set (a := n * pow2_down e) in *. set (b := d * pow2_up e) in *.
  rewrite Z.min_r in * by lia. set (q := div_even a b) in *.
  assert (Q : 0 <= q <= 2 ^ 53) by (unfold q; apply div_even_range; lia).
  assert (B : e = -1074 \/ 2 ^ 52 <= q).
  { destruct Bg as [E|G]; [now left|]. right. unfold q. apply (div_even_range a b (2 ^ 52) (2 ^ 53)); lia. }
  unfold f64_parts.
  destruct (Z.lt_ge_cases q (2 ^ 52)) as [L|L].
  - destruct B as [E|B]; [|lia]. rewrite E. change ((-1074 + 1074) * 2 ^ 52 + q) with q.
    rewrite Z.div_small, Z.mod_small by lia. cbn [Z.eqb]. split; [lia|]. left. split; reflexivity.
  - destruct (Z.eq_dec q (2 ^ 53)) as [E|N].
    + assert (X : ((e + 1074) * 2 ^ 52 + q) / 2 ^ 52 = e + 1076).
      { rewrite E. replace ((e + 1074) * 2 ^ 52 + 2 ^ 53) with ((e + 1076) * 2 ^ 52) by ring. apply Z.div_mul. lia. }
      assert (Y : ((e + 1074) * 2 ^ 52 + q) mod 2 ^ 52 = 0).
      { rewrite E. replace ((e + 1074) * 2 ^ 52 + 2 ^ 53) with ((e + 1076) * 2 ^ 52) by ring. apply Z.mod_mul. lia. }
      rewrite X, Y. destruct (Z.eqb_spec (e + 1076) 0); [lia|]. split; [lia|]. right. repeat split; [exact E|lia].
    + assert (X : ((e + 1074) * 2 ^ 52 + q) / 2 ^ 52 = e + 1075).
      { replace ((e + 1074) * 2 ^ 52 + q) with ((q - 2 ^ 52) + (e + 1075) * 2 ^ 52) by ring.
        rewrite Z.div_add by lia. rewrite Z.div_small by lia. reflexivity. }
      assert (Y : ((e + 1074) * 2 ^ 52 + q) mod 2 ^ 52 = q - 2 ^ 52).
      { replace ((e + 1074) * 2 ^ 52 + q) with ((q - 2 ^ 52) + (e + 1075) * 2 ^ 52) by ring.
        rewrite Z.mod_add by lia. apply Z.mod_small. lia. }
      rewrite X, Y. destruct (Z.eqb_spec (e + 1075) 0); [lia|]. split; [lia|]. left. split; lia.
Qed.

(** Two ways of writing the same number are equally far. *)
Lemma distance_shift n d q e : distance n d q (e + 1) * pow2_down e = distance n d (2 * q) e * pow2_down (e + 1).
Proof.
  unfold distance. pose proof (pow2_pos e) as [U1 D1]. pose proof (pow2_pos (e + 1)) as [U2 D2].
  rewrite <- (Z.abs_eq (pow2_down e)) at 1 by lia. rewrite <- (Z.abs_eq (pow2_down (e + 1))) at 2 by lia.
  rewrite <- !Z.abs_mul. f_equal.
  assert (X : pow2_up (e + 1) * pow2_down e = 2 * pow2_up e * pow2_down (e + 1)).
  { rewrite !pow2_up_eq, !pow2_down_eq.
    replace (2 * 2 ^ Z.max e 0) with (2 ^ (1 + Z.max e 0)) by (rewrite Z.pow_add_r by lia; reflexivity).
    rewrite <- !Z.pow_add_r by lia. f_equal. lia. }
  rewrite !Z.mul_sub_distr_r. f_equal; [ring|].
  transitivity (q * d * (pow2_up (e + 1) * pow2_down e)); [ring|]. rewrite X. ring.
Qed.
Lemma no_further_trans n d m e m' e' m2 e2 : no_further n d m e m' e' -> no_further n d m' e' m2 e2 -> no_further n d m e m2 e2.
Proof.
  unfold no_further. pose proof (pow2_pos e) as [_ D1]. pose proof (pow2_pos e') as [_ D2]. pose proof (pow2_pos e2) as [_ D3].
  intros H1 H2. apply (Z.mul_le_mono_pos_r _ _ (pow2_down e')); [lia|].
  apply Z.le_trans with (distance n d m' e' * pow2_down e2 * pow2_down e).
  - replace (distance n d m e * pow2_down e2 * pow2_down e') with (distance n d m e * pow2_down e' * pow2_down e2) by ring.
    replace (distance n d m' e' * pow2_down e2 * pow2_down e) with (distance n d m' e' * pow2_down e * pow2_down e2) by ring.
    apply Z.mul_le_mono_nonneg_r; lia.
  - replace (distance n d m2 e2 * pow2_down e * pow2_down e') with (distance n d m2 e2 * pow2_down e' * pow2_down e) by ring.
    apply Z.mul_le_mono_nonneg_r; lia.
Qed.
(** Rounding at [e] is no further than any multiple of [2^e]. *)
Lemma rounded_near n d e q : 0 < d ->
  no_further n d (div_even (n * pow2_down e) (d * pow2_up e)) e q e.
Proof.
  intros Hd. pose proof (pow2_pos e) as [U D]. unfold no_further, distance. apply Z.mul_le_mono_nonneg_r; [lia|].
  rewrite <- !Z.mul_assoc. apply div_even_near. apply Z.mul_pos_pos; lia.
Qed.
(** [m' * 2^e'] with [e <= e'] is a multiple of [2^e]. *)
Lemma coarser n d e m' e' : e <= e' -> exists q, no_further n d q e m' e'.
Proof.
  intros H. destruct (pow2_move e e' H) as (p & Hp & E). exists (m' * p). unfold no_further.
  pose proof (pow2_pos e) as [U1 D1]. pose proof (pow2_pos e') as [U2 D2]. unfold distance.
  rewrite <- (Z.abs_eq (pow2_down e')) at 1 by lia. rewrite <- (Z.abs_eq (pow2_down e)) at 2 by lia.
  rewrite <- !Z.abs_mul. apply Z.eq_le_incl. f_equal. rewrite !Z.mul_sub_distr_r. f_equal; [ring|].
  transitivity (m' * d * (p * (pow2_up e * pow2_down e'))); [ring|]. rewrite <- E. ring.
Qed.
(** Below the smallest multiple that has 53 bits. *)
Lemma finer n d e m' e' : 0 < d -> e' < e -> m' < 2 ^ 53 -> 2 ^ 52 * (d * pow2_up e) <= n * pow2_down e ->
  no_further n d (2 ^ 52) e m' e'.
Proof.
  intros Hd He Hm Hb. destruct (pow2_move e' e ltac:(lia)) as (p & Hp & E).
  pose proof (pow2_pos e) as [U1 D1]. pose proof (pow2_pos e') as [U2 D2].
  assert (P2 : 2 <= p).
  { destruct (Z.eq_dec p 1) as [->|]; [|lia]. exfalso.
    assert (X : 2 * (pow2_up e' * pow2_down e) <= pow2_up e * pow2_down e').
    { rewrite !pow2_up_eq, !pow2_down_eq. rewrite <- !Z.pow_add_r by lia.
      rewrite <- Z.pow_succ_r by lia. apply Z.pow_le_mono_r; lia. }
    rewrite E in X. assert (0 < pow2_up e' * pow2_down e) by (apply Z.mul_pos_pos; lia). lia. }
  unfold no_further, distance.
  rewrite (Z.abs_eq (n * pow2_down e - _)) by lia.
  assert (M : m' * d * pow2_up e' * pow2_down e <= 2 ^ 52 * d * pow2_up e * pow2_down e').
  { transitivity (2 ^ 53 * (d * (pow2_up e' * pow2_down e))).
    - replace (m' * d * pow2_up e' * pow2_down e) with (m' * (d * (pow2_up e' * pow2_down e))) by ring.
      apply Z.mul_le_mono_nonneg_r; [|lia]. apply Z.mul_nonneg_nonneg; [lia|]. apply Z.mul_nonneg_nonneg; lia.
    - replace (2 ^ 52 * d * pow2_up e * pow2_down e') with (2 ^ 52 * (d * (pow2_up e * pow2_down e'))) by ring.
      rewrite E. replace (2 ^ 53) with (2 ^ 52 * 2) by reflexivity. rewrite <- Z.mul_assoc.
      apply Z.mul_le_mono_nonneg_l; [lia|].
      replace (d * (p * (pow2_up e' * pow2_down e))) with (p * (d * (pow2_up e' * pow2_down e))) by ring.
      apply Z.mul_le_mono_nonneg_r; [|lia]. apply Z.mul_nonneg_nonneg; [lia|]. apply Z.mul_nonneg_nonneg; lia. }
  rewrite <- (Z.abs_eq (pow2_down e)) at 2 by lia. rewrite <- Z.abs_mul.
  rewrite !Z.mul_sub_distr_r. lia.
Qed.
Theorem ratio_nearest n d b : 0 < n -> 0 < d -> f64_ratio n d <> f64_inf -> 0 <= b < f64_inf ->
  let '(m, e) := f64_parts (f64_ratio n d) in let '(m', e') := f64_parts b in no_further n d m e m' e'.
Proof.
  intros Hn Hd Hi Hb. pose proof (ratio_value n d Hn Hd Hi) as V. pose proof (ulp_big n d Hn Hd) as Bg.
  destruct (f64_parts (f64_ratio n d)) as [m x]. set (e := ulp_exp n d) in *. cbv zeta in V.
  set (q := div_even (n * pow2_down e) (d * pow2_up e)) in *. destruct V as [Ee V].
  destruct (f64_parts b) as [m' e'] eqn:Eb.
  assert (B : -1074 <= e' /\ 0 <= m' < 2 ^ 53).
  { revert Eb. unfold f64_parts. pose proof (Z.mod_pos_bound b (2 ^ 52) ltac:(lia)).
    assert (0 <= b / 2 ^ 52) by (apply Z.div_pos; lia).
    destruct (Z.eqb_spec (b / 2 ^ 52) 0); intros [= <- <-]; lia. }
  assert (N : no_further n d q e m' e').
  { destruct (Z.le_gt_cases e e') as [L|L].
    - destruct (coarser n d e m' e' L) as [z Z]. eapply no_further_trans; [|exact Z]. now apply rounded_near.
    - destruct Bg as [E|G]; [lia|]. rewrite scaled_pow2 in G. cbn [fst snd] in G.
      eapply no_further_trans; [apply (rounded_near n d e (2 ^ 52) Hd)|]. apply finer; try lia. }
  destruct V as [[-> ->]|(-> & Q & ->)]; [exact N|].
  eapply no_further_trans; [|exact N]. rewrite Q. unfold no_further.
  rewrite distance_shift. change (2 * 2 ^ 52) with (2 ^ 53). apply Z.le_refl.
Qed.

(** Half way between two, the even one. *)
Lemma div_even_tie a b : 0 < b -> 2 * Z.abs (a - div_even a b * b) = b -> Z.even (div_even a b) = true.
Proof.
  intros Hb. unfold div_even. pose proof (Z.div_mod a b ltac:(lia)) as D. pose proof (Z.mod_pos_bound a b Hb) as M.
  set (x := a / b) in *. set (r := a mod b) in *. clearbody x r. subst a.
  destruct (Z.ltb_spec b (2 * r)) as [L|L]; cbn [orb].
  - replace (b * x + r - (x + 1) * b) with (r - b) by ring. lia.
  - destruct (Z.eqb_spec b (2 * r)) as [E|E]; cbn [andb].
    + destruct (Z.odd x) eqn:O; intros _.
      * rewrite Z.add_1_r, Z.even_succ. exact O.
      * rewrite <- Z.negb_odd, O. reflexivity.
    + replace (b * x + r - x * b) with r by ring. lia.
Qed.
Theorem ratio_tie n d : 0 < n -> 0 < d -> f64_ratio n d <> f64_inf ->
  let '(m, e) := f64_parts (f64_ratio n d) in 2 * distance n d m e = d * pow2_up e -> Z.even m = true.
Proof.
  intros Hn Hd Hi. pose proof (ratio_value n d Hn Hd Hi) as V.
  destruct (f64_parts (f64_ratio n d)) as [m x]. set (e := ulp_exp n d) in *. cbv zeta in V.
  destruct V as [Ee [[-> ->]|(-> & _ & _)]]; [|reflexivity].
  pose proof (pow2_pos e) as [U D]. intros T. apply div_even_tie; [apply Z.mul_pos_pos; lia|].
  etransitivity; [|exact T]. unfold distance. now rewrite Z.mul_assoc.
Qed.
