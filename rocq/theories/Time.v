(** Dates and times as text.
    Models the pieces of chrono that butane calls: [format] and
    [parse_from_str] with the formats "%Y-%m-%d" and "%Y-%m-%d %H:%M:%S%.f"
    (butane_core/src/db/sqlite.rs:27-30 and 528-537, 647-655;
    butane_core/src/db/turso.rs; butane_core/src/db/helper.rs:313-317). *)
From Verif Require Import Base SqlVal.

(** * Dates that exist *)

Definition leap_year (y : Z) : bool :=
  Z.eqb (y mod 4) 0 && (negb (Z.eqb (y mod 100) 0) || Z.eqb (y mod 400) 0).
Definition month_length (y m : Z) : Z :=
  if Z.eqb m 2 then (if leap_year y then 29 else 28)
  else if Z.eqb m 4 || Z.eqb m 6 || Z.eqb m 9 || Z.eqb m 11 then 30 else 31.
(** chrono's NaiveDate: years from -262143 to 262142. *)
Definition valid_date (d : date) : bool :=
  (Z.leb (-262143) (d_year d) && Z.leb (d_year d) 262142)
  && (Z.leb 1 (d_month d) && Z.leb (d_month d) 12)
  && (Z.leb 1 (d_day d) && Z.leb (d_day d) (month_length (d_year d) (d_month d))).
(** A leap second is second 59 with a second billion of nanoseconds. *)
Definition valid_timestamp (t : timestamp) : bool :=
  valid_date (t_date t)
  && (Z.leb 0 (t_hour t) && Z.ltb (t_hour t) 24)
  && (Z.leb 0 (t_min t) && Z.ltb (t_min t) 60)
  && (Z.leb 0 (t_sec t) && Z.ltb (t_sec t) 60)
  && (Z.leb 0 (t_nano t) && Z.ltb (t_nano t) (if Z.eqb (t_sec t) 59 then 2000000000 else 1000000000)).

(** * Writing *)

Definition digit_char (z : Z) : ascii := ascii_of_N (Z.to_N (48 + z)).
(** [{:0w}] of a number of at most [w] digits. *)
Fixpoint pad (w : nat) (z : Z) : string :=
  match w with
  | O => ""
  | S w' => (pad w' (z / 10) ++ String (digit_char (z mod 10)) "")%string
  end.
(** %Y: four digits, or a sign and at least four digits outside 0..9999. *)
Definition year_digits (y : Z) : string :=
  if Z.ltb y 10000 then pad 4 y else if Z.ltb y 100000 then pad 5 y else pad 6 y.
Definition format_year (y : Z) : string :=
  if Z.ltb y 0 then ("-" ++ year_digits (- y))%string
  else if Z.ltb 9999 y then ("+" ++ year_digits y)%string
  else year_digits y.
(** "%Y-%m-%d" *)
Definition format_date (d : date) : string :=
  (format_year (d_year d) ++ "-" ++ pad 2 (d_month d) ++ "-" ++ pad 2 (d_day d))%string.
(** %.f: nothing, or 3, 6 or 9 digits. *)
Definition format_nano (n : Z) : string :=
  if Z.eqb n 0 then ""
  else if Z.eqb (n mod 1000000) 0 then ("." ++ pad 3 (n / 1000000))%string
  else if Z.eqb (n mod 1000) 0 then ("." ++ pad 6 (n / 1000))%string
  else ("." ++ pad 9 n)%string.
(** "%H:%M:%S%.f": a leap second is written as second 60. *)
Definition format_time (t : timestamp) : string :=
  let leap := Z.leb 1000000000 (t_nano t) in
  (pad 2 (t_hour t) ++ ":" ++ pad 2 (t_min t) ++ ":"
   ++ pad 2 (if leap then t_sec t + 1 else t_sec t)
   ++ format_nano (if leap then t_nano t - 1000000000 else t_nano t))%string.
(** "%Y-%m-%d{sep}%H:%M:%S%.f" *)
Definition format_timestamp (sep : string) (t : timestamp) : string :=
  (format_date (t_date t) ++ sep ++ format_time t)%string.

(** * Reading *)

Definition digit_of (c : ascii) : option Z :=
  let n := Z.of_N (N_of_ascii c) in
  if Z.leb 48 n && Z.leb n 57 then Some (n - 48)%Z else None.
(** At most [n] digits: the number, how many, and the rest. *)
Fixpoint digs (n : nat) (acc : Z) (cnt : nat) (s : string) : Z * nat * string :=
  match n, s with
  | S n', String c s' =>
      match digit_of c with
      | Some x => digs n' (acc * 10 + x) (S cnt) s'
      | None => (acc, cnt, s)
      end
  | _, _ => (acc, cnt, s)
  end.
(** A number of one to [n] digits.  Simplified: chrono also skips white space
    before a number. *)
Definition number (n : nat) (s : string) : option (Z * string) :=
  match digs n 0 0 s with (z, S _, r) => Some (z, r) | _ => None end.
Definition expect (c : ascii) (s : string) : option string :=
  match s with String c' r => if Ascii.eqb c c' then Some r else None | "" => None end.
(** With a sign any number of digits, without at most four. *)
Definition parse_year (s : string) : option (Z * string) :=
  match s with
  | String "-" r => option_map (fun zr => (- fst zr, snd zr)%Z) (number (String.length r) r)
  | String "+" r => number (String.length r) r
  | _ => number 4 s
  end.
Definition pbind {A B} (x : option A) (f : A -> option B) : option B :=
  match x with Some a => f a | None => None end.
Notation "'let!' x := e 'in' f" := (pbind e (fun x => f)) (at level 200, x pattern, right associativity).
Definition date_part (s : string) : option (date * string) :=
  let! (y, s) := parse_year s in let! s := expect "-" s in
  let! (m, s) := number 2 s in let! s := expect "-" s in
  let! (dd, s) := number 2 s in
  let d := {| d_year := y; d_month := m; d_day := dd |} in
  if valid_date d then Some (d, s) else None.
Definition parse_date (s : string) : option date :=
  match date_part s with Some (d, "") => Some d | _ => None end.
Fixpoint skip_digits (s : string) : string :=
  match s with String c s' => match digit_of c with Some _ => skip_digits s' | None => s end | "" => "" end.
Definition parse_nano (s : string) : option (Z * string) :=
  match s with
  | String "." r => match digs 9 0 0 r with
                    | (z, S k, r') => Some (z * 10 ^ (9 - Z.of_nat (S k)), skip_digits r')%Z
                    | _ => None
                    end
  | _ => Some (0%Z, s)
  end.
Definition parse_timestamp (sep : ascii) (s : string) : option timestamp :=
  let! (d, s) := date_part s in let! s := expect sep s in
  let! (h, s) := number 2 s in let! s := expect ":" s in
  let! (mi, s) := number 2 s in let! s := expect ":" s in
  let! (sec, s) := number 2 s in
  let! (n, s) := parse_nano s in
  let t := if Z.eqb sec 60
           then {| t_date := d; t_hour := h; t_min := mi; t_sec := 59; t_nano := n + 1000000000 |}
           else {| t_date := d; t_hour := h; t_min := mi; t_sec := sec; t_nano := n |} in
  match s with "" => if valid_timestamp t then Some t else None | _ => None end.

(** * Reading what was written *)

Lemma digit_of_char z : (0 <= z < 10)%Z -> digit_of (digit_char z) = Some z.
Proof.
  intros H. assert (z = 0 \/ z = 1 \/ z = 2 \/ z = 3 \/ z = 4 \/ z = 5 \/ z = 6 \/ z = 7 \/ z = 8 \/ z = 9)%Z as C by lia.
  repeat (destruct C as [->|C]; [reflexivity|]). now subst.
Qed.
Lemma pad_S w z s : (pad (S w) z ++ s = pad w (z / 10) ++ String (digit_char (z mod 10)) s)%string.
Proof. cbn [pad]. rewrite <- str_app_assoc. reflexivity. Qed.
Lemma pow10_S w : (10 ^ Z.of_nat (S w) = 10 * 10 ^ Z.of_nat w)%Z.
Proof. rewrite Nat2Z.inj_succ, Z.pow_succ_r by lia. reflexivity. Qed.

Lemma digs_pad w : forall n acc cnt z s, (0 <= z < 10 ^ Z.of_nat w)%Z ->
  digs (w + n) acc cnt (pad w z ++ s) = digs n (acc * 10 ^ Z.of_nat w + z) (cnt + w) s.
Proof.
  induction w as [|w IH]; intros n acc cnt z s H.
  - cbn [pad append Nat.add]. change (10 ^ Z.of_nat 0)%Z with 1%Z in *. rewrite Nat.add_0_r. f_equal. lia.
  - rewrite pow10_S in H. rewrite pad_S. replace (S w + n) with (w + S n) by lia.
    pose proof (Z_div_mod_eq_full z 10). pose proof (Z.mod_pos_bound z 10).
    rewrite IH by lia. cbn [digs]. rewrite digit_of_char by lia. rewrite pow10_S. f_equal; lia.
Qed.

Definition no_digit (s : string) : Prop := match s with "" => True | String c _ => digit_of c = None end.
Lemma digs_stop n acc cnt s : no_digit s -> digs n acc cnt s = (acc, cnt, s).
Proof. destruct n, s as [|c s]; cbn; auto. intros ->. reflexivity. Qed.
Lemma number_pad w n z s : (0 <= z < 10 ^ Z.of_nat w)%Z -> (0 < w <= n)%nat -> n = w \/ no_digit s ->
  number n (pad w z ++ s) = Some (z, s).
Proof.
  intros H Hw Hs. unfold number. replace n with (w + (n - w)) by lia. rewrite digs_pad by assumption.
  assert (E : digs (n - w) (0 * 10 ^ Z.of_nat w + z) (0 + w) s = (z, w, s)).
  { destruct Hs as [->|Hs]; [rewrite Nat.sub_diag; destruct s; reflexivity|]. now rewrite digs_stop. }
  rewrite E. destruct w; [lia|reflexivity].
Qed.
Lemma pad_length w : forall z, String.length (pad w z) = w.
Proof. induction w as [|w IH]; intros z; [reflexivity|]. cbn [pad]. rewrite str_app_length, IH. cbn. lia. Qed.

Lemma pad_nosign w z s : (0 <= z < 10 ^ Z.of_nat (S w))%Z -> exists c r, (pad (S w) z ++ s)%string = String c r /\ digit_of c <> None.
Proof.
  revert z s. induction w as [|w IH]; intros z s H.
  - rewrite pad_S. cbn. pose proof (Z.mod_pos_bound z 10). do 2 eexists. split; [reflexivity|]. rewrite digit_of_char by lia. discriminate.
  - rewrite pad_S. rewrite pow10_S in H. apply IH. pose proof (Z_div_mod_eq_full z 10). pose proof (Z.mod_pos_bound z 10). lia.
Qed.

Lemma year_digits_pad y : (0 <= y < 1000000)%Z -> exists w, year_digits y = pad (S w) y /\ (3 <= w)%nat /\ (0 <= y < 10 ^ Z.of_nat (S w))%Z
  /\ ((y < 10000)%Z -> w = 3).
Proof.
  intros H. unfold year_digits. destruct (Z.ltb_spec y 10000); [exists 3|destruct (Z.ltb_spec y 100000); [exists 4|exists 5]];
    (split; [reflexivity|]); (split; [lia|]); (split; [|lia]).
  - change (10 ^ Z.of_nat 4)%Z with 10000%Z. lia.
  - change (10 ^ Z.of_nat 5)%Z with 100000%Z. lia.
  - change (10 ^ Z.of_nat 6)%Z with 1000000%Z. lia.
Qed.
Lemma parse_format_year y s : (-1000000 < y < 1000000)%Z -> no_digit s -> parse_year (format_year y ++ s) = Some (y, s).
Proof.
  intros H Hs. unfold format_year. destruct (Z.ltb_spec y 0).
  - destruct (year_digits_pad (- y)) as (w & E & Hw & B & _); [lia|]. rewrite E. cbn [append parse_year].
    rewrite number_pad; [cbn; now rewrite Z.opp_involutive|assumption| |now right].
    rewrite str_app_length, pad_length. lia.
  - destruct (year_digits_pad y) as (w & E & Hw & B & W4); [lia|]. destruct (Z.ltb_spec 9999 y).
    + rewrite E. cbn [append parse_year]. apply number_pad; [assumption| |now right]. rewrite str_app_length, pad_length. lia.
    + rewrite E. specialize (W4 ltac:(lia)). subst w. destruct (pad_nosign 3 y s B) as (c & r & Ec & Dc).
      unfold parse_year. rewrite Ec.
      destruct (Ascii.eqb_spec c "-") as [->|N1]; [elim Dc; reflexivity|]. destruct (Ascii.eqb_spec c "+") as [->|N2]; [elim Dc; reflexivity|].
      replace (match c with "-"%char => option_map (fun zr => ((- fst zr)%Z, snd zr)) (number (String.length r) r)
                | "+"%char => number (String.length r) r | _ => number 4 (String c r) end) with (number 4 (String c r))
        by (destruct c as [[] [] [] [] [] [] [] []]; reflexivity || congruence).
      rewrite <- Ec. apply number_pad; [assumption|lia|now right].
Qed.

Lemma valid_date_bounds d : valid_date d = true ->
  (-262143 <= d_year d <= 262142)%Z /\ (1 <= d_month d <= 12)%Z /\ (1 <= d_day d <= 31)%Z.
Proof.
  unfold valid_date. rewrite !andb_true_iff, !Z.leb_le. intros (((Y1 & Y2) & (M1 & M2)) & (D1 & D2)).
  split; [lia|]. split; [lia|]. split; [lia|]. unfold month_length in D2.
  destruct (Z.eqb (d_month d) 2); [destruct (leap_year (d_year d)); lia|].
  destruct (Z.eqb (d_month d) 4 || Z.eqb (d_month d) 6 || Z.eqb (d_month d) 9 || Z.eqb (d_month d) 11); lia.
Qed.

Lemma date_part_format d s : valid_date d = true -> no_digit s -> date_part (format_date d ++ s) = Some (d, s).
Proof.
  intros V Hs. destruct (valid_date_bounds d V) as (Y & M & Dd). unfold date_part, format_date.
  rewrite <- !str_app_assoc. rewrite parse_format_year by (lia || reflexivity). cbn [pbind append expect]. rewrite Ascii.eqb_refl. cbn [pbind].
  rewrite number_pad; [|change (10 ^ Z.of_nat 2)%Z with 100%Z; lia|lia|now left].
  cbn [pbind expect]. rewrite Ascii.eqb_refl. cbn [pbind].
  rewrite number_pad; [|change (10 ^ Z.of_nat 2)%Z with 100%Z; lia|lia|now left]. cbn [pbind].
  destruct d as [y m dd]. cbn [d_year d_month d_day] in *. rewrite V. reflexivity.
Qed.

Theorem date_roundtrip d : valid_date d = true -> parse_date (format_date d) = Some d.
Proof.
  intros V. unfold parse_date. rewrite <- (str_app_nil_r (format_date d)). rewrite date_part_format by (assumption || exact I). reflexivity.
Qed.

Lemma nano_roundtrip n : (0 <= n < 1000000000)%Z -> parse_nano (format_nano n) = Some (n, ""%string).
Proof.
  intros H. unfold format_nano. destruct (Z.eqb_spec n 0) as [->|Hn]; [reflexivity|].
  assert (G : forall w z, (0 < w <= 9)%nat -> (0 <= z < 10 ^ Z.of_nat w)%Z ->
    parse_nano ("." ++ pad w z) = Some (z * 10 ^ (9 - Z.of_nat w), "")%Z%string).
  { intros w z Hw Hz. cbn [append parse_nano]. rewrite <- (str_app_nil_r (pad w z)).
    replace 9 with (w + (9 - w)) by lia. rewrite digs_pad by assumption. rewrite digs_stop by exact I.
    destruct w; [lia|]. cbn [Nat.add]. cbn [skip_digits]. do 3 f_equal. }
  destruct (Z.eqb_spec (n mod 1000000) 0); [|destruct (Z.eqb_spec (n mod 1000) 0)].
  - rewrite G; [|lia|change (10 ^ Z.of_nat 3)%Z with 1000%Z; pose proof (Z_div_mod_eq_full n 1000000); lia].
    change (10 ^ (9 - Z.of_nat 3))%Z with 1000000%Z. do 2 f_equal. pose proof (Z_div_mod_eq_full n 1000000). lia.
  - rewrite G; [|lia|change (10 ^ Z.of_nat 6)%Z with 1000000%Z; pose proof (Z_div_mod_eq_full n 1000); lia].
    change (10 ^ (9 - Z.of_nat 6))%Z with 1000%Z. do 2 f_equal. pose proof (Z_div_mod_eq_full n 1000). lia.
  - rewrite G; [|lia|change (10 ^ Z.of_nat 9)%Z with 1000000000%Z; lia]. change (10 ^ (9 - Z.of_nat 9))%Z with 1%Z. do 2 f_equal. lia.
Qed.
Lemma nano_no_digit n : no_digit (format_nano n).
Proof. unfold format_nano. destruct (Z.eqb n 0), (Z.eqb (n mod 1000000) 0), (Z.eqb (n mod 1000) 0); exact I || reflexivity. Qed.

Theorem timestamp_roundtrip sep t : digit_of sep = None -> valid_timestamp t = true ->
  parse_timestamp sep (format_timestamp (String sep "") t) = Some t.
Proof.
  intros Hsep V. pose proof V as V0. unfold valid_timestamp in V0. rewrite !andb_true_iff, !Z.leb_le, !Z.ltb_lt in V0.
  destruct V0 as ((((Vd & H1 & H2) & M1 & M2) & S1 & S2) & N1 & N2).
  unfold parse_timestamp, format_timestamp, format_time.
  set (leap := Z.leb 1000000000 (t_nano t)).
  assert (Hsec : (0 <= (if leap then t_sec t + 1 else t_sec t) <= 60)%Z) by (destruct leap; lia).
  assert (Hn : (0 <= (if leap then t_nano t - 1000000000 else t_nano t) < 1000000000)%Z).
  { unfold leap. destruct (Z.leb_spec 1000000000 (t_nano t)); [|lia]. destruct (Z.eqb (t_sec t) 59); lia. }
  rewrite date_part_format by (assumption || exact Hsep). cbn [pbind append expect]. rewrite Ascii.eqb_refl. cbn [pbind].
  rewrite number_pad; [|change (10 ^ Z.of_nat 2)%Z with 100%Z; lia|lia|now left]. cbn [pbind expect]. rewrite Ascii.eqb_refl. cbn [pbind].
  rewrite number_pad; [|change (10 ^ Z.of_nat 2)%Z with 100%Z; lia|lia|now left]. cbn [pbind expect]. rewrite Ascii.eqb_refl. cbn [pbind].
  rewrite number_pad; [|change (10 ^ Z.of_nat 2)%Z with 100%Z; lia|lia|now left]. cbn [pbind].
  rewrite nano_roundtrip by assumption. cbn [pbind].
  assert (E : (if Z.eqb (if leap then t_sec t + 1 else t_sec t) 60
      then {| t_date := t_date t; t_hour := t_hour t; t_min := t_min t; t_sec := 59; t_nano := (if leap then t_nano t - 1000000000 else t_nano t) + 1000000000 |}
      else {| t_date := t_date t; t_hour := t_hour t; t_min := t_min t; t_sec := (if leap then t_sec t + 1 else t_sec t);
              t_nano := (if leap then t_nano t - 1000000000 else t_nano t) |}) = t).
  { destruct t as [td th tm ts tn]. cbn [t_date t_hour t_min t_sec t_nano] in *. unfold leap in *.
    destruct (Z.leb_spec 1000000000 tn).
    - destruct (Z.eqb_spec ts 59); [subst ts; cbn [Z.eqb Z.add]; cbn; f_equal; lia|lia].
    - destruct (Z.eqb_spec ts 60); [lia|reflexivity]. }
  rewrite E, V. reflexivity.
Qed.
