(** Database types and values.
    Models butane_core/src/lib.rs:371-397 ([SqlType]) and
    butane_core/src/sqlval.rs:78-94 ([SqlVal]). *)
From Verif Require Import Base.

(** butane_core/src/lib.rs:371-397.  All features (datetime, json, pg) on.
    [SqlTypeCustom::Pg(ty)] is represented by the type's name. *)
Inductive SqlType :=
| TBool | TInt | TBigInt | TReal | TText | TDate | TTimestamp | TBlob | TJson
| TCustom (name : string).

Definition sqltype_eqb (a b : SqlType) : bool :=
  match a, b with
  | TBool, TBool | TInt, TInt | TBigInt, TBigInt | TReal, TReal | TText, TText
  | TDate, TDate | TTimestamp, TTimestamp | TBlob, TBlob | TJson, TJson => true
  | TCustom x, TCustom y => String.eqb x y
  | _, _ => false
  end.
Lemma sqltype_eqb_spec a b : reflect (a = b) (sqltype_eqb a b).
Proof.
  destruct a, b; cbn; try (constructor; congruence).
  destruct (String.eqb_spec name name0); constructor; congruence.
Qed.

(** f64 as its IEEE-754 bit pattern (0 <= bits < 2^64). *)
Definition f64 := Z.
Definition f64_mag (b : f64) : Z := Z.modulo b (2 ^ 63).
Definition f64_is_nan (b : f64) : bool := Z.ltb 9218868437227405312 (f64_mag b).
Definition f64_is_zero (b : f64) : bool := Z.eqb (f64_mag b) 0.
(** [PartialEq for f64]: NaN differs from everything, 0.0 == -0.0. *)
Definition f64_eqb (a b : f64) : bool :=
  negb (f64_is_nan a) && negb (f64_is_nan b)
  && (Z.eqb a b || (f64_is_zero a && f64_is_zero b)).

(** chrono::NaiveDate / NaiveDateTime as calendar fields. *)
Record date := { d_year : Z; d_month : Z; d_day : Z }.
Record timestamp := { t_date : date; t_hour : Z; t_min : Z; t_sec : Z; t_nano : Z }.
Definition date_eqb (a b : date) : bool :=
  Z.eqb (d_year a) (d_year b) && Z.eqb (d_month a) (d_month b) && Z.eqb (d_day a) (d_day b).
Definition timestamp_eqb (a b : timestamp) : bool :=
  date_eqb (t_date a) (t_date b) && Z.eqb (t_hour a) (t_hour b) && Z.eqb (t_min a) (t_min b)
  && Z.eqb (t_sec a) (t_sec b) && Z.eqb (t_nano a) (t_nano b).

(** butane_core/src/sqlval.rs:78-94.  A JSON value is represented by its
    canonical text, a blob by its bytes, a custom value by type name and bytes. *)
Inductive SqlVal :=
| VNull
| VBool (b : bool)
| VInt (i : Z)       (* i32 *)
| VBigInt (i : Z)    (* i64 *)
| VReal (r : f64)
| VText (s : string)
| VBlob (b : string)
| VJson (j : string)
| VDate (d : date)
| VTimestamp (t : timestamp)
| VCustom (ty data : string).

(** derived [PartialEq for SqlVal], sqlval.rs:77. *)
Definition sqlval_eqb (a b : SqlVal) : bool :=
  match a, b with
  | VNull, VNull => true
  | VBool x, VBool y => Bool.eqb x y
  | VInt x, VInt y => Z.eqb x y
  | VBigInt x, VBigInt y => Z.eqb x y
  | VReal x, VReal y => f64_eqb x y
  | VText x, VText y => String.eqb x y
  | VBlob x, VBlob y => String.eqb x y
  | VJson x, VJson y => String.eqb x y
  | VDate x, VDate y => date_eqb x y
  | VTimestamp x, VTimestamp y => timestamp_eqb x y
  | VCustom t x, VCustom u y => String.eqb t u && String.eqb x y
  | _, _ => false
  end.

(** Specification of value equality: identical, or two zeros of different sign;
    a NaN equals nothing. *)
Definition sqlval_nan (v : SqlVal) : Prop :=
  exists r, v = VReal r /\ f64_is_nan r = true.
Definition sqlval_same (a b : SqlVal) : Prop :=
  ~ sqlval_nan a /\ ~ sqlval_nan b /\
  (a = b \/ exists r s, a = VReal r /\ b = VReal s /\ f64_is_zero r = true /\ f64_is_zero s = true).

Lemma date_eqb_eq a b : date_eqb a b = true <-> a = b.
Proof.
  destruct a, b; unfold date_eqb; cbn. rewrite !andb_true_iff, !Z.eqb_eq.
  split; [intros ((-> & ->) & ->); reflexivity|]. intros [= -> -> ->]; auto.
Qed.
Lemma timestamp_eqb_eq a b : timestamp_eqb a b = true <-> a = b.
Proof.
  destruct a, b; unfold timestamp_eqb; cbn. rewrite !andb_true_iff, !Z.eqb_eq, date_eqb_eq.
  split; [intros ((((-> & ->) & ->) & ->) & ->); reflexivity|]. intros [= -> -> -> -> ->]; auto.
Qed.

Lemma sqlval_eqb_same a b : sqlval_eqb a b = true <-> sqlval_same a b.
Proof.
  unfold sqlval_same, sqlval_nan. split.
  - intros H. destruct a, b; cbn in H; try congruence.
    5: { unfold f64_eqb in H. rewrite !andb_true_iff, !negb_true_iff, orb_true_iff in H.
         destruct H as [[Ha Hb] H].
         split; [intros (x & [= ->] & Hx); congruence|].
         split; [intros (x & [= ->] & Hx); congruence|].
         destruct H as [H|H]; [left; apply Z.eqb_eq in H; congruence|].
         right. apply andb_true_iff in H as [Hz1 Hz2]. eauto 6. }
    all: split; [intros (x & [=] & _)|]; split; [intros (x & [=] & _)|]; left; try reflexivity.
    + apply eqb_prop in H; congruence.
    + apply Z.eqb_eq in H; congruence.
    + apply Z.eqb_eq in H; congruence.
    + apply String.eqb_eq in H; congruence.
    + apply String.eqb_eq in H; congruence.
    + apply String.eqb_eq in H; congruence.
    + apply date_eqb_eq in H; congruence.
    + apply timestamp_eqb_eq in H; congruence.
    + apply andb_true_iff in H as [H1 H2]. apply String.eqb_eq in H1, H2; congruence.
  - intros (Na & Nb & [->|(r & s & -> & -> & Hr & Hs)]).
    + destruct b; cbn; auto using Z.eqb_refl, String.eqb_refl, eqb_reflx.
      * unfold f64_eqb. destruct (f64_is_nan r) eqn:E; [exfalso; apply Na; eauto|].
        rewrite Z.eqb_refl. reflexivity.
      * apply date_eqb_eq; reflexivity.
      * apply timestamp_eqb_eq; reflexivity.
      * rewrite !String.eqb_refl; reflexivity.
    + cbn. unfold f64_eqb.
      destruct (f64_is_nan r) eqn:Er; [exfalso; apply Na; eauto|].
      destruct (f64_is_nan s) eqn:Es; [exfalso; apply Nb; eauto|].
      rewrite Hr, Hs, orb_true_r. reflexivity.
Qed.
Lemma sqlval_eqb_refl a : ~ sqlval_nan a -> sqlval_eqb a a = true.
Proof. intros H. apply sqlval_eqb_same. split; [assumption|]. split; [assumption|]. auto. Qed.

(** sqlval.rs:165-185. *)
Definition sqlval_type (v : SqlVal) : option SqlType :=
  match v with
  | VNull => None
  | VBool _ => Some TBool
  | VInt _ => Some TInt
  | VBigInt _ => Some TBigInt
  | VReal _ => Some TReal
  | VText _ => Some TText
  | VDate _ => Some TDate
  | VTimestamp _ => Some TTimestamp
  | VBlob _ => Some TBlob
  | VJson _ => Some TJson
  | VCustom ty _ => Some (TCustom ty)
  end.

(** sqlval.rs:157-162. *)
Definition is_compatible (v : SqlVal) (t : SqlType) (null_allowed : bool) : bool :=
  match sqlval_type v with
  | None => null_allowed
  | Some ty => sqltype_eqb t ty
  end.
