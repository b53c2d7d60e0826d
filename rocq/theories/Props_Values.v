(** C32-C35 and C48: values, automatic keys and foreign keys. *)
From Verif Require Import Base SqlVal Time Turso Conv ConvSpec ConvProofs ConvReal Backend BackendSpec CalendarSpec BackendProofs
  Fkey FkeySpec FkeyProofs.

(** * C32: Rust values and SQL values *)

(** A value of any supported type converts and comes back.  [rust_ok] leaves out
    the NaNs of f32 and unset automatic keys; [single_option] leaves out options
    of options. *)
Theorem C32_round_trip_partial : forall t x, single_option t -> rust_ok t x ->
  exists v, to_sql t x = Ok v /\ from_sql t v = Ok x.
Proof. intros t x So Hx. now apply conv_roundtrip. Qed.
Print Assumptions C32_round_trip_partial.

Example C32_case : single_option (ROption (RInt U32)) /\ rust_ok (ROption (RInt U32)) (Some 4294967295%Z)
  /\ to_sql (ROption (RInt U32)) (Some 4294967295%Z) = Ok (VBigInt 4294967295)
  /\ from_sql (ROption (RInt U32)) (VBigInt 4294967295) = Ok (Some 4294967295%Z).
Proof. repeat split; vm_compute; congruence. Qed.
(** The smallest positive f32, a subnormal. *)
Example C32_case_f32 : rust_ok RF32 1%Z /\ to_sql RF32 1%Z = Ok (VReal 3936146074321813504%Z)
  /\ from_sql RF32 (VReal 3936146074321813504%Z) = Ok 1%Z.
Proof. repeat split; vm_compute; congruence. Qed.

(** An option of an option loses a value. *)
Theorem C32_nested_option_refuted :
  exists t (x y : rust t), rust_ok t x /\ to_sql t x = to_sql t y /\ x <> y.
Proof. exists (ROption (ROption RBool)), (Some None), None. repeat split. discriminate. Qed.
Print Assumptions C32_nested_option_refuted.

(** The SQL value is of the kind declared for the type's column; it is NULL only
    for an option. *)
Theorem C32_kind : forall t x v, single_option t -> to_sql t x = Ok v ->
  is_compatible v (rsqltype t) (is_option t) = true.
Proof. intros t x v So E. exact (conv_kind t So x v E). Qed.
Print Assumptions C32_kind.

(** An integer fits its column. *)
Theorem C32_fits_column : forall t x v, rust_ok t x -> to_sql t x = Ok v -> fits_column v.
Proof. intros t x v Hx E. exact (conv_column t x v Hx E). Qed.
Print Assumptions C32_fits_column.
(** A SQL value of another kind is rejected with an error.  NULL is accepted for
    an option, and text is examined for a uuid. *)
Theorem C32_other_kind : forall t v, single_option t ->
  sqlval_type v <> Some (rsqltype t) -> ~ (v = VNull /\ is_option t = true) ->
  ~ (is_uuid t = true /\ exists s, v = VText s) -> from_sql t v = Err CannotConvertSqlVal.
Proof. intros t v So K N U. now apply conv_other_kind. Qed.
Print Assumptions C32_other_kind.
Example C32_other_kind_case : from_sql (RInt I32) (VBigInt 7) = Err CannotConvertSqlVal
  /\ from_sql RString VNull = Err CannotConvertSqlVal /\ from_sql (ROption RString) VNull = Ok None.
Proof. repeat split. Qed.

(** An accepted value that fits the type is not altered. *)
Theorem C32_unaltered_partial : forall t v x, fits_type t v -> from_sql t v = Ok x -> to_sql t x = Ok v.
Proof. intros t v x F E. exact (conv_fits t v x F E). Qed.
Print Assumptions C32_unaltered_partial.
Example C32_unaltered_case : fits_type (RInt U8) (VInt 255) /\ from_sql (RInt U8) (VInt 255) = Ok 255%Z.
Proof. repeat split; vm_compute; congruence. Qed.

(** Finding: an integer outside the type's range is accepted and altered. *)
Theorem C32_range_refuted : exists t v x, from_sql t v = Ok x /\ to_sql t x <> Ok v.
Proof. exists (RInt U8), (VInt 300), 44%Z. split; [reflexivity|]. vm_compute. congruence. Qed.
Print Assumptions C32_range_refuted.
(** What such an integer becomes has the same low bits. *)
Theorem C32_low_bits : forall w z x, from_sql (RInt w) (VInt z) = Ok x \/ from_sql (RInt w) (VBigInt z) = Ok x ->
  int_in w x /\ exists k, z = (x + k * int_values w)%Z.
Proof. exact conv_low_bits. Qed.
Print Assumptions C32_low_bits.
(** Finding: so is a real number an f32 cannot hold; a large one becomes infinite. *)
Theorem C32_f32_refuted : exists v x, from_sql RF32 v = Ok x /\ to_sql RF32 x <> Ok v /\ x = 2139095040%Z.
Proof. exists (VReal 9214871658872686752%Z), 2139095040%Z. repeat split; vm_compute; congruence. Qed.
Print Assumptions C32_f32_refuted.

(** Reading a real number as f32 gives, for numbers without sign, the nearest f32, of two
    the even one; beyond the largest, infinity; for no number, no number.  The sign is
    kept. *)
Theorem C32_f32_nearest : forall b, (0 <= b < f64_top)%Z -> exists x, from_sql RF32 (VReal b) = Ok x /\
  (((2 ^ 25 - 1) * 2 ^ 1177 <= f64_units b)%Z -> x = f32_top) /\
  ((f64_units b < (2 ^ 25 - 1) * 2 ^ 1177)%Z -> (x < f32_top)%Z /\
   forall y, (0 <= y < f32_top)%Z ->
     (Z.abs (f32_units x - f64_units b) <= Z.abs (f32_units y - f64_units b))%Z
     /\ (f32_units y <> f32_units x -> Z.abs (f32_units x - f64_units b) = Z.abs (f32_units y - f64_units b) -> Z.even x = true)).
Proof.
  intros b H. exists (f64_to_f32 b). split; [reflexivity|]. pose proof (too_large b H) as T. split; [apply T|]. intros L.
  assert (X : (f64_to_f32 b < f32_top)%Z).
  { assert (N : f64_to_f32 b <> f32_top) by (intros E; apply T in E; lia). destruct (narrows b H) as (E & q & g & _ & _ & _ & R & _).
    rewrite R in *. lia. }
  split; [exact X|]. intros y Hy. now apply nearest.
Qed.
Print Assumptions C32_f32_nearest.
Theorem C32_f32_sign : forall (b : f64) (x : f32), (0 <= b < 2 ^ 63)%Z -> from_sql RF32 (VReal b) = Ok x ->
  from_sql RF32 (VReal (b + 2 ^ 63)%Z) = Ok (x + 2 ^ 31)%Z.
Proof. intros b x H [= <-]. cbn. now rewrite narrow_sign. Qed.
Print Assumptions C32_f32_sign.
Theorem C32_f32_nan : forall b, (f64_top < b < 2 ^ 63)%Z -> exists x, from_sql RF32 (VReal b) = Ok x /\ (f32_top < x < 2 ^ 31)%Z.
Proof. intros b H. eexists. split; [reflexivity|]. now apply narrow_nan. Qed.
Print Assumptions C32_f32_nan.
(** Writing an f32 is exact. *)
Theorem C32_f32_exact : forall x, (0 <= x < f32_top)%Z -> exists r, to_sql RF32 x = Ok (VReal r)
  /\ (0 <= r < f64_top)%Z /\ f64_units r = f32_units x.
Proof. intros x H. eexists. split; [reflexivity|]. now apply widens. Qed.
Print Assumptions C32_f32_exact.
(** 0.1 becomes the f32 nearest to it; halfway between two numbers it is the even one;
    1e300 is infinite. *)
Example C32_f32_nearest_case : (0 <= 4591870180066957722 < f64_top)%Z /\ from_sql RF32 (VReal 4591870180066957722%Z) = Ok 1036831949%Z
  /\ from_sql RF32 (VReal (4607182418800017408 + 2 ^ 28)%Z) = Ok 1065353216%Z
  /\ from_sql RF32 (VReal (4607182418800017408 + 3 * 2 ^ 28)%Z) = Ok 1065353218%Z
  /\ from_sql RF32 (VReal 9094988221360862272%Z) = Ok f32_top.
Proof. repeat split; vm_compute; congruence. Qed.

(** A uuid is read from every usual text of it; bytes of another length are rejected. *)
Theorem C32_uuid_text : forall u, String.length u = 16 ->
  from_sql RUuid (VText (uuid_text u)) = Ok u /\ from_sql RUuid (VText (hex_text u)) = Ok u
  /\ from_sql RUuid (VText ("{" ++ uuid_text u ++ "}")) = Ok u
  /\ from_sql RUuid (VText ("urn:uuid:" ++ uuid_text u)) = Ok u.
Proof.
  intros u H. destruct (uuid_text_read u H) as (A & B & C & D). unfold from_sql.
  rewrite A, B, C, D. repeat split.
Qed.
Print Assumptions C32_uuid_text.
Theorem C32_uuid_length : forall b, String.length b <> 16 -> from_sql RUuid (VBlob b) = Err CannotConvertSqlVal.
Proof. intros b H. cbn. destruct (Nat.eqb_spec (String.length b) 16); [contradiction|reflexivity]. Qed.
Print Assumptions C32_uuid_length.
Example C32_uuid_case : uuid_text "0123456789abcdef" = "30313233-3435-3637-3839-616263646566"
  /\ from_sql RUuid (VText "30313233343536373839616263646566") = Ok "0123456789abcdef".
Proof. split; vm_compute; reflexivity. Qed.

(** The dates and times these theorems speak of are those of the calendar and the clock. *)
Theorem C32_dates : forall json_text d, value_ok json_text (VDate d) <-> in_calendar d.
Proof.
  intros jt d. unfold value_ok, in_calendar, valid_date, month_length, leap_year. cbn [In].
  rewrite !Bool.andb_true_iff, !Z.leb_le.
  assert (Dv : forall n, (0 < n)%Z -> ((n | d_year d)%Z <-> (d_year d mod n = 0)%Z)) by (intros n Hn; symmetry; apply Z.mod_divide; lia).
  rewrite !Dv by lia.
  destruct (Z.eqb_spec (d_month d) 2) as [->|N2].
  - destruct (Z.eqb_spec (d_year d mod 4) 0), (Z.eqb_spec (d_year d mod 100) 0), (Z.eqb_spec (d_year d mod 400) 0); cbn [andb orb negb]; lia.
  - destruct (Z.eqb_spec (d_month d) 4), (Z.eqb_spec (d_month d) 6), (Z.eqb_spec (d_month d) 9), (Z.eqb_spec (d_month d) 11); cbn [orb]; lia.
Qed.
Print Assumptions C32_dates.
Theorem C32_times : forall json_text t, value_ok json_text (VTimestamp t) <-> in_calendar (t_date t) /\ on_clock t.
Proof.
  intros jt t. rewrite <- (C32_dates jt). unfold value_ok, valid_timestamp, on_clock. rewrite !Bool.andb_true_iff, !Z.leb_le, !Z.ltb_lt.
  destruct (Z.eqb_spec (t_sec t) 59); intuition lia.
Qed.
Print Assumptions C32_times.
Example C32_dates_case : in_calendar {| d_year := 2024; d_month := 2; d_day := 29 |} /\ ~ in_calendar {| d_year := 1900; d_month := 2; d_day := 29 |}
  /\ in_calendar {| d_year := 2000; d_month := 2; d_day := 29 |} /\ ~ in_calendar {| d_year := 2023; d_month := 4; d_day := 31 |}.
Proof. rewrite <- !(C32_dates Some). repeat split; try reflexivity; discriminate. Qed.

(** A map with text keys is written as a JSON object and read back, given that
    the element type survives serde and objects survive JSON. *)
Theorem C32_map : forall T (ser : T -> string) de object members,
  (forall x, de (ser x) = Some x) -> (forall l, members (object l) = Some l) ->
  forall m, map_from_sql de members (map_to_sql ser object m) = Ok m.
Proof. intros T ser de object members H1 H2 m. now apply map_roundtrip. Qed.
Print Assumptions C32_map.
(** Finding: an object with a member of another type panics instead of being rejected. *)
Theorem C32_map_member_refuted : exists (de : string -> option nat) members v, map_from_sql de members v = Panic.
Proof.
  exists (fun s => if String.eqb s "1" then Some 1 else None),
    (fun s => if String.eqb s "{""a"":true}" then Some [("a", "true")] else None), (VJson "{""a"":true}"). reflexivity.
Qed.
Print Assumptions C32_map_member_refuted.

(** Converting never panics otherwise. *)
Theorem C32_no_panic : forall t v, from_sql t v <> Panic.
Proof. exact conv_total. Qed.
Print Assumptions C32_no_panic.

(** * C33: SQL values in the backends *)

(** Written to a column of its kind and read back, a value is unchanged.
    Custom values do not exist outside PostgreSQL; NaN is treated below. *)
Theorem C33_sqlite_partial : forall json_text v ty, value_ok json_text v -> of_kind v ty -> ~ is_custom v -> ~ sqlval_nan v ->
  exists x, sqlite_write v = Ok x /\ sqlite_read json_text (sqlite_keeps x) ty = Ok v.
Proof. exact sqlite_roundtrip. Qed.
Print Assumptions C33_sqlite_partial.
Theorem C33_turso_partial : forall json_text v ty, value_ok json_text v -> of_kind v ty -> ~ is_custom v -> ~ sqlval_nan v ->
  exists x, sqlval_to_turso v = Ok x /\ turso_value_to_sqlval_typed json_text (turso_keeps x) ty = Ok v
    /\ forall l n e, nth_error l n = Some v -> row_get l n ty e = Ok v.
Proof. exact turso_roundtrip. Qed.
Print Assumptions C33_turso_partial.
(** [pg_exact]: whole microseconds and dates PostgreSQL knows. *)
Theorem C33_pg_partial : forall json_text v ty, value_ok json_text v -> of_kind v ty -> pg_exact v ->
  exists x, pg_write v (pg_column_type ty) = Ok x /\ pg_read x ty = Ok v.
Proof. exact pg_roundtrip. Qed.
Print Assumptions C33_pg_partial.

Definition new_year : timestamp :=
  {| t_date := {| d_year := 2024; d_month := 1; d_day := 1 |}; t_hour := 0; t_min := 0; t_sec := 59; t_nano := 1500 |}.
Example C33_case : value_ok Some (VTimestamp new_year) /\ of_kind (VTimestamp new_year) TTimestamp
  /\ sqlite_write (VTimestamp new_year) = Ok (LText "2024-01-01 00:00:59.000001500")
  /\ sqlite_read Some (LText "2024-01-01 00:00:59.000001500") TTimestamp = Ok (VTimestamp new_year).
Proof. repeat split; try (vm_compute; reflexivity). right. reflexivity. Qed.

(** Not a number is what has all exponent bits and a bit of the fraction set. *)
Theorem C33_nan : forall r, (0 <= r < 2 ^ 64)%Z ->
  (sqlval_nan (VReal r) <-> ((r / 2 ^ 52) mod 2 ^ 11 = 2 ^ 11 - 1 /\ r mod 2 ^ 52 <> 0)%Z).
Proof.
  intros r Hr. assert (Q0 : sqlval_nan (VReal r) <-> f64_is_nan r = true).
  { split; [intros (r' & [= <-] & H); exact H|intros H; exists r; auto]. }
  rewrite Q0. unfold f64_is_nan, f64_mag. rewrite Z.ltb_lt.
  pose proof (Z.div_mod r (2 ^ 52)) as A. pose proof (Z.mod_pos_bound r (2 ^ 52)) as B.
  pose proof (Z.div_mod (r / 2 ^ 52) (2 ^ 11)) as C. pose proof (Z.mod_pos_bound (r / 2 ^ 52) (2 ^ 11)) as G.
  pose proof (Z.div_mod r (2 ^ 63)) as H. pose proof (Z.mod_pos_bound r (2 ^ 63)) as J.
  assert (Q : (r / 2 ^ 52 / 2 ^ 11 = r / 2 ^ 63)%Z) by (rewrite Z.div_div by lia; reflexivity).
  rewrite Q in C. lia.
Qed.
Print Assumptions C33_nan.
(** Finding: a NaN written to SQLite or Turso reads back as NULL. *)
Theorem C33_nan_refuted : exists v x, value_ok Some v /\ sqlite_write v = Ok x
  /\ sqlite_read Some (sqlite_keeps x) TReal = Ok VNull /\ v <> VNull.
Proof. exists (VReal 9221120237041090560%Z), (LReal 9221120237041090560%Z). repeat split; vm_compute; congruence. Qed.
Print Assumptions C33_nan_refuted.
(** Finding: PostgreSQL drops nanoseconds. *)
Theorem C33_pg_nanoseconds_refuted : exists v x w, value_ok Some v /\ of_kind v TTimestamp
  /\ pg_write v (pg_column_type TTimestamp) = Ok x /\ pg_read x TTimestamp = Ok w /\ w <> v.
Proof.
  exists (VTimestamp new_year). do 2 eexists. split; [reflexivity|]. split; [right; reflexivity|].
  split; [vm_compute; reflexivity|]. split; [vm_compute; reflexivity|]. unfold new_year. intros [=].
Qed.
Print Assumptions C33_pg_nanoseconds_refuted.

(** Reading with an incompatible type: PostgreSQL always refuses. *)
Theorem C33_pg_other_type : forall v ty ty' x, pg_write v (pg_column_type ty) = Ok x -> v <> VNull -> ty' <> ty ->
  pg_read x ty' = Err SqlResultTypeMismatch.
Proof. exact pg_refuses. Qed.
Print Assumptions C33_pg_other_type.
(** And it only accepts a value of the column's kind. *)
Theorem C33_pg_write : forall v ty x, pg_write v (pg_column_type ty) = Ok x -> of_kind v ty.
Proof. exact pg_write_kind. Qed.
Print Assumptions C33_pg_write.
(** SQLite and Turso refuse a value of another storage class. *)
Theorem C33_sqlite_other_class : forall json_text v ty x w, sqlite_write v = Ok x -> v <> VNull -> ~ sqlval_nan v ->
  sqlite_read json_text (sqlite_keeps x) ty = Ok w ->
  exists t, sqlval_type v = Some t /\ class_of t = class_of ty /\ class_of ty <> None.
Proof. intros json_text v ty x w. exact (sqlite_refuses json_text v ty x w). Qed.
Print Assumptions C33_sqlite_other_class.
Theorem C33_turso_other_class : forall json_text v ty x w, sqlval_to_turso v = Ok x -> v <> VNull -> ~ sqlval_nan v ->
  turso_value_to_sqlval_typed json_text (turso_keeps x) ty = Ok w ->
  exists t, sqlval_type v = Some t /\ class_of t = class_of ty /\ class_of ty <> None.
Proof. intros json_text v ty x w. exact (turso_refuses json_text v ty x w). Qed.
Print Assumptions C33_turso_other_class.
(** A row that was read refuses to give a value as another kind. *)
Theorem C33_row_other_type : forall l n ty e v, nth_error l n = Some v -> ~ of_kind v ty ->
  row_get l n ty e = Err CannotConvertSqlVal.
Proof. exact row_get_refuses. Qed.
Print Assumptions C33_row_other_type.
(** Finding: within a storage class the value is altered without an error: a
    64-bit column read as a 32-bit one. *)
Theorem C33_sqlite_other_type_refuted : exists v x w, value_ok Some v /\ sqlite_write v = Ok x
  /\ ~ of_kind v TInt /\ sqlite_read Some (sqlite_keeps x) TInt = Ok w /\ w = VInt 1.
Proof.
  exists (VBigInt 4294967297%Z). do 2 eexists. split; [vm_compute; split; congruence|]. split; [reflexivity|].
  split; [intros [H|H]; discriminate|]. split; [vm_compute; reflexivity|reflexivity].
Qed.
Print Assumptions C33_sqlite_other_type_refuted.

(** * C34: automatic keys *)

(** Equal exactly when both are set to equal values (that are themselves set, for keys
    inside keys). *)
Theorem C34_equal : forall P (d : pktype P) a b, pk_eqb (autopk d) a b = true
  <-> exists x y, a = Some x /\ b = Some y /\ pk_is_valid d x = true /\ pk_is_valid d y = true /\ pk_eqb d x y = true.
Proof.
  intros P d [x|] [y|]; cbn; try (split; [intros H; try discriminate H|intros (? & ? & H1 & H2 & _); discriminate]).
  - destruct (pk_is_valid d x) eqn:Vx, (pk_is_valid d y) eqn:Vy; cbn; split; intros H; try discriminate H;
      try (destruct H as (x' & y' & H1 & H2 & H3 & H4 & H5); injection H1 as <-; injection H2 as <-; congruence).
    exists x, y. auto.
  - destruct (pk_is_valid d x); discriminate H.
Qed.
Print Assumptions C34_equal.
Theorem C34_equal_key : forall P (d : pktype P) a b, autopk_eq_key d a b = true
  <-> exists x, a = Some x /\ pk_is_valid d x = true /\ pk_is_valid d b = true /\ pk_eqb d x b = true.
Proof.
  intros P d [x|] b; cbn; unfold autopk_eq_key; cbn; [|split; [discriminate|intros (x & H & _); discriminate]].
  destruct (pk_is_valid d x) eqn:Vx, (pk_is_valid d b) eqn:Vb; cbn; split; intros H; try discriminate H;
    try (destruct H as (x' & H1 & H2 & H3 & H4); injection H1 as <-; congruence).
  exists x. auto.
Qed.
Print Assumptions C34_equal_key.
(** The same for the fields of an object. *)
Theorem C34_equal_field : forall t (a b : rust (RAutoPk t)),
  rust_eqb (RAutoPk t) a b = true <-> exists x y, a = Some x /\ b = Some y /\ rust_eqb t x y = true.
Proof.
  intros t a b. change (rust_eqb (RAutoPk t) a b) with (match a, b with Some x, Some y => rust_eqb t x y | _, _ => false end).
  destruct a as [x|], b as [y|]; split; intros H; try discriminate H; try (destruct H as (x' & y' & H1 & H2 & H3); congruence).
  exists x, y. auto.
Qed.
Print Assumptions C34_equal_field.
(** Ordered exactly when both are set. *)
Theorem C34_order : forall P (cmp : P -> P -> comparison) a b c,
  autopk_partial_cmp cmp a b = Some c <-> exists x y, a = Some x /\ b = Some y /\ cmp x y = c.
Proof. intros P cmp a b c. apply auto_cmp. Qed.
Print Assumptions C34_order.
(** Over any sequence of attempts to set an unset key, the first value that is a
    key is kept and the others change nothing. *)
Theorem C34_set_once : forall P (d : pktype P), (forall p, pk_is_valid d p = true) ->
  forall vs, fold_left (fun k v => snd (initialize (autopk d) k v)) vs None
    = match find (fun v => match pk_from d v with Ok _ => true | _ => false end) vs with
      | Some v => match pk_from d v with Ok p => Some p | _ => None end
      | None => None
      end.
Proof.
  intros P d V vs. rewrite (auto_init d V). induction vs as [|v vs IH]; [reflexivity|]. cbn.
  destruct (pk_from d v) eqn:E; [now rewrite E|exact IH|exact IH].
Qed.
Print Assumptions C34_set_once.
Theorem C34_never_changed : forall P (d : pktype P), (forall p, pk_is_valid d p = true) ->
  forall p vs, fold_left (fun k v => snd (initialize (autopk d) k v)) vs (Some p) = Some p.
Proof. intros P d V p vs. now apply auto_init_set. Qed.
Print Assumptions C34_never_changed.
(** An unset key has no SQL value: writing it stops the program. *)
Theorem C34_unset_refused : forall P (d : pktype P) k v,
  pk_to (autopk d) k = Ok v <-> exists p, k = Some p /\ pk_to d p = Ok v.
Proof. intros P d k v. apply auto_write. Qed.
Print Assumptions C34_unset_refused.
Theorem C34_valid : forall P (d : pktype P), (forall p, pk_is_valid d p = true) ->
  forall k, pk_is_valid (autopk d) k = true <-> exists p, k = Some p.
Proof. intros P d V k. now apply auto_valid. Qed.
Print Assumptions C34_valid.
Example C34_case :
  let d := plain_key (RInt I64) in
  fold_left (fun k v => snd (initialize (autopk d) k v)) [VText "x"; VBigInt 5; VBigInt 6] None = Some 5%Z
  /\ pk_eqb (autopk d) None None = false /\ pk_eqb (autopk d) (Some 5%Z) (Some 5%Z) = true
  /\ pk_to (autopk d) None = Panic.
Proof. repeat split. Qed.

(** * C35: foreign keys *)

(** Every way of making a foreign key gives one that refers to the key given. *)
Theorem C35_made : forall O P (d : pktype P) (pk_of : O -> P),
  (forall p f, fk_from_pk d p = Ok f -> refers_to d pk_of f p)
  /\ (forall o, refers_to d pk_of (fk_from_obj o) (pk_of o))
  /\ (forall o f, fk_from_ref d pk_of o = Ok f -> refers_to d pk_of f (pk_of o))
  /\ (forall p v f, pk_to d p = Ok v -> fk_from_sql v = Ok f -> refers_to d pk_of f p).
Proof.
  intros O P d pk_of. split; [apply from_pk_refers|]. split; [apply from_obj_refers|].
  split; [intros o f; apply from_pk_refers|apply from_sql_refers].
Qed.
Print Assumptions C35_made.

(** Over any history each operation answers as specified for one fixed key:
    [pk] is that key, [get] the loaded object, [load] the loaded object or what the
    database answers for that key, and a comparison compares that key.  Keys
    compared with must be set; see C35_compare_unset_refuted. *)
Theorem C35_history_partial : forall O P (d : pktype P) (pk_of : O -> P) good, lawful d good ->
  forall ops f p, good p -> refers_to d pk_of f p -> Forall (op_ok d pk_of good) ops ->
  fk_expected d p (f_val f) ops (fst (fk_run d pk_of ops f)) /\ refers_to d pk_of (snd (fk_run d pk_of ops f)) p.
Proof. intros O P d pk_of good L ops f p. now apply fk_history. Qed.
Print Assumptions C35_history_partial.

(** Foreign keys are equal exactly when their keys are. *)
Theorem C35_equal_partial : forall O P (d : pktype P) (pk_of : O -> P) good, lawful d good ->
  forall f g p q, good p -> good q -> refers_to d pk_of f p -> refers_to d pk_of g q ->
  f_val f <> None \/ (exists w, pk_to d q = Ok w) -> fk_eq_fk d pk_of f g = Ok (pk_eqb d p q).
Proof. intros O P d pk_of good L f g p q. now apply fk_equality. Qed.
Print Assumptions C35_equal_partial.

(** The key types butane offers are lawful. *)
Theorem C35_key_types : forall t, pk_able t -> lawful (plain_key t) (rust_ok t)
  /\ lawful (autopk (plain_key t)) (fun k => match k with Some p => rust_ok t p | None => True end).
Proof. intros t A. split; [now apply plain_lawful|]. apply auto_lawful; [reflexivity|now apply plain_lawful]. Qed.
Print Assumptions C35_key_types.

(** A blog with an automatic key and a title. *)
Definition blog := (option Z * string)%type.
Definition blog_key := autopk (plain_key (RInt I64)).
Definition blog_pk (b : blog) : option Z := fst b.
Definition broken_db (p : option Z) : outcome blog := Err (DbError 7).
Definition blog_db (p : option Z) : outcome blog :=
  match p with Some z => if Z.eqb z 7 then Ok (Some 7%Z, "news") else Err NoSuchObject | None => Err NoSuchObject end.
Example C35_case : answers_right blog_pk blog_db /\ answers_right blog_pk broken_db /\
  match fk_from_pk blog_key (Some 7%Z) with
  | Ok f => fst (fk_run blog_key blog_pk [OpGet; OpLoad broken_db; OpPk; OpLoad blog_db; OpGet; OpLoad broken_db; OpEq (Some 7%Z)] f)
     = [ResObj (Err ValueNotLoaded); ResObj (Err (DbError 7)); ResPk (Ok (Some 7%Z)); ResObj (Ok (Some 7%Z, "news"));
        ResObj (Ok (Some 7%Z, "news")); ResObj (Ok (Some 7%Z, "news")); ResBool (Ok true)]
  | _ => False
  end.
Proof.
  split; [|split; [intros p o [=]|reflexivity]].
  intros [z|] o; cbn; [|discriminate]. destruct (Z.eqb_spec z 7); [|discriminate]. intros [= <-]. now subst.
Qed.

(** Finding: comparing a foreign key made from a key with an unset automatic key
    panics, while one made from an object answers false. *)
Theorem C35_compare_unset_refuted : exists f g q, fk_from_pk blog_key (Some 7%Z) = Ok f
  /\ refers_to blog_key blog_pk g (Some 7%Z) /\ @fk_eq blog _ blog_key blog_pk f q = Panic /\ fk_eq blog_key blog_pk g q = Ok false.
Proof.
  do 2 eexists. exists None. split; [reflexivity|]. split; [exact (from_obj_refers blog_key blog_pk (Some 7%Z, "news"))|].
  split; reflexivity.
Qed.
Print Assumptions C35_compare_unset_refuted.
(** Finding: a foreign key accepts any SQL value, NULL included; asking for its
    key then panics. *)
Theorem C35_unreadable_key_refuted : exists v f, fk_from_sql v = Ok f /\ @fk_pk blog _ blog_key blog_pk f = Panic.
Proof. exists VNull. eexists. split; reflexivity. Qed.
Print Assumptions C35_unreadable_key_refuted.

(** * C48: a foreign key shared by several threads *)

(** Under every schedule all loads that succeed return the same object, the one
    [get] returns from then on, and a key or object once there never changes. *)
Theorem C48_one_object : forall O P (d : pktype P) (pk_of : O -> P) sched f ts,
  (forall t, In t ts -> t = LStart \/ t = WStart) ->
  let (f', ts') := run_threads d pk_of sched f ts in
  (forall o, f_val f = Some o -> f_val f' = Some o)
  /\ (forall v, f_valpk f = Some v -> f_valpk f' = Some v)
  /\ (forall o, In (LDone (Ok o)) ts' -> f_val f' = Some o)
  /\ (forall v, In (WDone (Ok v)) ts' -> f_valpk f' = Some v).
Proof.
  intros O P d pk_of sched f ts H. pose proof (threads_inv d pk_of sched f ts) as T.
  destruct (run_threads d pk_of sched f ts) as [f' ts'].
  destruct T as [[G1 G2] I].
  - intros i t E. destruct (H t (nth_error_In _ _ E)) as [->| ->]; exact Logic.I.
  - repeat split; auto.
    + intros o Ho. apply In_nth_error in Ho as (i & Ei). exact (I i _ Ei).
    + intros v Hv. apply In_nth_error in Hv as (i & Ei). exact (I i _ Ei).
Qed.
Print Assumptions C48_one_object.

(** No thread panics when the foreign key holds its key from the start... *)
Theorem C48_no_panic_partial : forall O P (d : pktype P) (pk_of : O -> P) sched f ts v p,
  f_valpk f = Some v -> pk_from d v = Ok p -> Forall (fun ia => snd ia <> Panic) sched ->
  (forall t, In t ts -> t = LStart \/ t = WStart) ->
  ~ In (LDone Panic) (snd (run_threads d pk_of sched f ts)) /\ ~ In (WDone Panic) (snd (run_threads d pk_of sched f ts)).
Proof.
  intros O P d pk_of sched f ts v p Ev Ep Fa H.
  assert (S : forall i t, nth_error (snd (run_threads d pk_of sched f ts)) i = Some t -> t_safe t).
  { eapply threads_safe; eauto. intros i t E. destruct (H t (nth_error_In _ _ E)) as [->| ->]; split; exact I. }
  split; intros Hi; apply In_nth_error in Hi as (i & Ei); exact (S i _ Ei).
Qed.
Print Assumptions C48_no_panic_partial.
(** ... or when threads only load. *)
Theorem C48_loads_no_panic : forall O P (d : pktype P) (pk_of : O -> P) sched f ts,
  (f_val f <> None \/ exists v p, f_valpk f = Some v /\ pk_from d v = Ok p) ->
  Forall (fun ia => snd ia <> Panic) sched -> (forall t, In t ts -> t = LStart) ->
  ~ In (LDone Panic) (snd (run_threads d pk_of sched f ts)).
Proof.
  intros O P d pk_of sched f ts Hf Fa H Hi. apply In_nth_error in Hi as (i & Ei).
  assert (T : t_load (@LDone O Panic)); [|cbn in T; congruence].
  eapply (threads_load d pk_of sched f ts Hf Fa); [|exact Ei].
  intros j t E. rewrite (H t (nth_error_In _ _ E)). repeat split. discriminate.
Qed.
Print Assumptions C48_loads_no_panic.
(** Finding: two threads that convert the same foreign key to a SQL value, when it
    was made from an object, can panic. *)
Theorem C48_to_sql_refuted : exists sched,
  In (WDone Panic) (snd (run_threads blog_key blog_pk sched (fk_from_obj (Some 7%Z, "news")) [WStart; WStart])).
Proof.
  exists [(0, Panic); (1, Panic); (0, Panic); (1, Panic); (0, Panic); (1, Panic)]. cbn. auto.
Qed.
Print Assumptions C48_to_sql_refuted.
Example C48_case : exists f', fk_from_pk blog_key (Some 7%Z) = Ok f' /\
  snd (run_threads blog_key blog_pk [(0, Panic); (1, Panic); (0, Ok (Some 7%Z, "news")); (1, Ok (Some 7%Z, "olds")); (1, Panic); (0, Panic); (0, Panic); (1, Panic)]
        f' [LStart; LStart]) = [LDone (Ok (Some 7%Z, "olds")); LDone (Ok (Some 7%Z, "olds"))].
Proof. eexists. split; reflexivity. Qed.
