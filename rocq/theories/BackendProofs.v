From Verif Require Import Base SqlVal Time Turso Backend BackendSpec.

Lemma as_i32_id i : (- 2 ^ 31 <= i < 2 ^ 31)%Z -> as_i32 i = i.
Proof. intros H. unfold as_i32. rewrite Z.mod_small; lia. Qed.
Local Arguments as_i32 : simpl never.

Section Json.
Variable json_text : string -> option string.

Theorem sqlite_roundtrip v ty : value_ok json_text v -> of_kind v ty -> ~ is_custom v -> ~ sqlval_nan v ->
  exists x, sqlite_write v = Ok x /\ sqlite_read json_text (sqlite_keeps x) ty = Ok v.
Proof.
  intros Ok_ [->|K] Nc Nn; [eexists; split; reflexivity|].
  destruct v; cbn in K, Ok_; try discriminate; injection K as <-; try (elim Nc; exists ty0, data; reflexivity); eexists; (split; [reflexivity|]); cbn [sqlite_keeps].
  - destruct b; reflexivity.
  - cbn. now rewrite as_i32_id.
  - reflexivity.
  - destruct (f64_is_nan r) eqn:E; [elim Nn; exists r; auto|]. reflexivity.
  - reflexivity.
  - reflexivity.
  - cbn. now rewrite Ok_.
  - unfold sqlite_read. cbn [l_str obind]. now rewrite date_roundtrip.
  - unfold sqlite_read. cbn [l_str obind]. rewrite timestamp_roundtrip; [reflexivity|reflexivity|assumption].
Qed.
Theorem sqlite_refuses v ty : forall x w, sqlite_write v = Ok x -> v <> VNull -> ~ sqlval_nan v ->
  sqlite_read json_text (sqlite_keeps x) ty = Ok w ->
  exists t, sqlval_type v = Some t /\ class_of t = class_of ty /\ class_of ty <> None.
Proof.
  intros x w E Nv Nn R. destruct v; cbn in E; try discriminate; injection E as <-; try congruence.
  all: cbn [sqlval_type]; eexists; (split; [reflexivity|]).
  all: try (cbn [sqlite_keeps] in R; destruct ty; cbn in R; try discriminate R; (split; [reflexivity|discriminate])).
  cbn [sqlite_keeps] in R. destruct (f64_is_nan r) eqn:En; [elim Nn; exists r; auto|].
  destruct ty; cbn in R; try discriminate R; (split; [reflexivity|discriminate]).
Qed.

Theorem turso_roundtrip v ty : value_ok json_text v -> of_kind v ty -> ~ is_custom v -> ~ sqlval_nan v ->
  exists x, sqlval_to_turso v = Ok x /\ turso_value_to_sqlval_typed json_text (turso_keeps x) ty = Ok v
    /\ forall l n e, nth_error l n = Some v -> row_get l n ty e = Ok v.
Proof.
  intros Ok_ Hk Nc Nn.
  assert (G : forall l n e, nth_error l n = Some v -> row_get l n ty e = Ok v).
  { intros l n e En. unfold row_get. rewrite En. unfold is_compatible.
    destruct Hk as [->|K]; [reflexivity|]. rewrite K. destruct (sqltype_eqb_spec ty ty); [reflexivity|congruence]. }
  destruct Hk as [->|K]; [eexists; split; [reflexivity|split; [reflexivity|assumption]]|].
  destruct v; cbn in K, Ok_; try discriminate; injection K as <-; try (elim Nc; exists ty0, data; reflexivity); eexists; (split; [reflexivity|]); (split; [|assumption]); cbn [turso_keeps].
  - destruct b; reflexivity.
  - cbn. now rewrite as_i32_id.
  - reflexivity.
  - destruct (f64_is_nan r) eqn:E; [elim Nn; exists r; auto|]. reflexivity.
  - reflexivity.
  - reflexivity.
  - cbn. now rewrite Ok_.
  - unfold turso_value_to_sqlval_typed. now rewrite date_roundtrip.
  - unfold turso_value_to_sqlval_typed. rewrite timestamp_roundtrip; [reflexivity|reflexivity|assumption].
Qed.
Theorem turso_refuses v ty : forall x w, sqlval_to_turso v = Ok x -> v <> VNull -> ~ sqlval_nan v ->
  turso_value_to_sqlval_typed json_text (turso_keeps x) ty = Ok w ->
  exists t, sqlval_type v = Some t /\ class_of t = class_of ty /\ class_of ty <> None.
Proof.
  intros x w E Nv Nn R. destruct v; cbn in E; try discriminate; injection E as <-; try congruence.
  all: cbn [sqlval_type]; eexists; (split; [reflexivity|]).
  all: try (cbn [turso_keeps] in R; destruct ty; cbn in R; try discriminate R; (split; [reflexivity|discriminate])).
  cbn [turso_keeps] in R. destruct (f64_is_nan r) eqn:En; [elim Nn; exists r; auto|].
  destruct ty; cbn in R; try discriminate R; (split; [reflexivity|discriminate]).
Qed.

Theorem row_get_refuses l n ty e v : nth_error l n = Some v -> ~ of_kind v ty -> row_get l n ty e = Err CannotConvertSqlVal.
Proof.
  intros En Nk. unfold row_get. rewrite En. unfold is_compatible. destruct (sqlval_type v) as [t|] eqn:Et.
  - destruct (sqltype_eqb_spec ty t); [subst; elim Nk; right; assumption|reflexivity].
  - elim Nk. left. destruct v; discriminate || reflexivity.
Qed.

Theorem pg_roundtrip v ty : value_ok json_text v -> of_kind v ty -> pg_exact v ->
  exists x, pg_write v (pg_column_type ty) = Ok x /\ pg_read x ty = Ok v.
Proof.
  intros Ok_ [->|K] X; [eexists; split; reflexivity|].
  destruct v; cbn in K, Ok_, X; try discriminate; injection K as <-.
  1-7: eexists; split; reflexivity.
  - cbn. unfold pg_date_in_range. destruct (Z.leb_spec (-4712) (d_year d)); [|lia]. eexists; split; reflexivity.
  - destruct X as (X1 & X2 & X3). cbn [pg_column_type pg_write]. unfold pg_date_in_range.
    destruct (Z.leb_spec (-4712) (d_year (t_date t))); [|lia]. destruct (Z.ltb_spec (t_nano t) 1000000000); [|lia].
    eexists; split; [reflexivity|]. unfold pg_read. cbn. do 2 f_equal.
    destruct t as [a b c d n]. cbn [t_date t_hour t_min t_sec t_nano] in *. f_equal. pose proof (Z_div_mod_eq_full n 1000). lia.
  - cbn. rewrite String.eqb_refl. eexists; split; [reflexivity|]. unfold pg_read. cbn. now rewrite String.eqb_refl.
Qed.
Theorem pg_refuses v ty ty' x : pg_write v (pg_column_type ty) = Ok x -> v <> VNull -> ty' <> ty ->
  pg_read x ty' = Err SqlResultTypeMismatch.
Proof.
  intros E Nv Nt. destruct v; [congruence|..]; destruct ty; cbn in E; try discriminate.
  1-7: injection E as <-; unfold pg_read; cbn; destruct ty'; cbn; congruence || reflexivity.
  - destruct (pg_date_in_range d); [|discriminate]. injection E as <-. unfold pg_read; cbn. destruct ty'; cbn; congruence || reflexivity.
  - destruct (pg_date_in_range (t_date t) && Z.ltb (t_nano t) 1000000000); [|discriminate]. injection E as <-. unfold pg_read; cbn. destruct ty'; cbn; congruence || reflexivity.
  - destruct (String.eqb_spec ty0 name); [|discriminate]. injection E as <-. unfold pg_read; cbn. destruct ty'; cbn; try reflexivity.
    destruct (String.eqb_spec name0 name); [congruence|reflexivity].
Qed.
Theorem pg_write_kind v ty x : pg_write v (pg_column_type ty) = Ok x -> of_kind v ty.
Proof.
  intros E. destruct v; [left; reflexivity|..]; right; destruct ty; cbn in E; try discriminate; try reflexivity.
  destruct (String.eqb_spec ty0 name); [|discriminate]. cbn. congruence.
Qed.
End Json.
