(** Properties C31, C45, C46 and C47: what the model macros generate and record. *)
From Verif Require Import Base SqlVal Adb Conv ConvSpec ConvProofs Codegen CodegenSpec CodegenProofs.

Notation resolver := (bool -> list string -> string -> option string).

Lemma written_plain resolve s : written_fields resolve s = plain_fields resolve s.
Proof.
  unfold written_fields, row_fields, plain_fields. generalize (st_fields s).
  induction l as [|x l IH]; [reflexivity|]. cbn.
  destruct (many_like resolve x); cbn; [exact IH|]. destruct (auto_like resolve x); cbn; congruence.
Qed.

(** * C31: every field is paired with its own column *)

(** The key, its column, the table and whether the key is automatic. *)
Theorem C31_key : forall (resolve : resolver) s g, impl_dbobject resolve s = Ok g ->
  key_field s (do_pk g)
  /\ do_pkcol g = strip_raw (sf_ident (do_pk g))
  /\ table_of s (do_table g)
  /\ (do_auto g = true <-> exists a, wraps resolve "AutoPk" (sf_ty (do_pk g)) a).
Proof.
  intros resolve s g H. apply dbobject_ok in H. destruct H.
  split; [now apply pk_field_spec|]. split; [exact sh_pkcol|]. split; [rewrite sh_table; apply table_name_of|].
  rewrite sh_auto. apply wrapped_spec.
Qed.
Print Assumptions C31_key.

(** Only the key may be automatic, and only over an integer type. *)
Theorem C31_automatic_fields : forall (resolve : resolver) s g, compiles resolve s ->
  impl_dbobject resolve s = Ok g ->
  forall f a, In f (st_fields s) -> wraps resolve "AutoPk" (sf_ty f) a ->
    f = do_pk g
    /\ (own_names resolve -> forall r, spells resolve a r -> rsqltype r = TInt \/ rsqltype r = TBigInt).
Proof.
  intros resolve s g [Hn _] H f a Hf Ha. apply dbobject_ok in H. destruct H.
  assert (Hau : auto_like resolve f = true) by (apply wrapped_spec; eauto).
  destruct (verify_auto_ok resolve _ _ sh_verify f Hf Hau) as (Hs & a' & d & Hw & Hd & Hk).
  split.
  - apply (distinct_ident s); auto; [now apply pk_field_spec in sh_key as []|].
    unfold same_field in Hs. apply String.eqb_eq in Hs. congruence.
  - intros Ho r Hr. rewrite (wraps_fun _ _ _ _ _ Hw Ha) in Hd.
    rewrite (spells_known _ _ _ Ho Hr) in Hd. inversion Hd; subst.
    destruct Hk as [Hk|Hk]; inversion Hk; auto.
Qed.
Print Assumptions C31_automatic_fields.

(** A model without a key is refused. *)
Theorem C31_no_key : forall (resolve : resolver) s,
  (forall f, ~ key_field s f) -> forall g, impl_dbobject resolve s <> Ok g.
Proof. intros resolve s H g Hg. apply C31_key in Hg as [Hg _]. now apply H in Hg. Qed.
Print Assumptions C31_no_key.

(** The columns selected are those of the fields that are not many-to-many, in
    the order of the struct; the columns written leave out an automatic key. *)
Theorem C31_columns : forall (resolve : resolver) s g, compiles resolve s -> impl_dbobject resolve s = Ok g ->
  dr_columns (do_result g) = map column_of (row_fields resolve s)
  /\ do_insert g = map column_of (written_fields resolve s)
  /\ (forall f, In f (written_fields resolve s) <->
                In f (row_fields resolve s) /\ (do_auto g = true -> f <> do_pk g)).
Proof.
  intros resolve s g [Hn Hk] H. apply dbobject_ok in H. pose proof H as Hs. destruct H.
  split; [now apply dataresult_ok in sh_result as (? & _)|]. rewrite written_plain. split; [exact sh_insert|].
  intros f. destruct (do_auto g) eqn:Ea.
  - rewrite (shape_auto _ _ _ Hs Ea Hn). intuition.
  - rewrite (shape_row _ _ _ Hs Ea Hn). intuition discriminate.
Qed.
Print Assumptions C31_columns.

(** The values written line up with the columns written: value by value they are
    the values of the same fields.  [b = false] is used only with an automatic
    key. *)
Theorem C31_write : forall (resolve : resolver) U M (sem : ty -> codec U) s g (o : @object U M) b vs,
  compiles resolve s -> impl_dbobject resolve s = Ok g -> b = true \/ do_auto g = true ->
  (non_auto_values sem g o b = Ok vs <-> Forall2 (stores sem o) (written_fields resolve s) vs).
Proof.
  intros resolve U M sem s g o b vs [Hn _] H Hb. apply dbobject_ok in H.
  rewrite (values_eq resolve sem s g o b H Hn Hb), written_plain. split.
  - intros E. apply omapm_ok in E. induction E; constructor; auto. now apply field_sql_ok.
  - intros E. apply omapm_forall2. induction E; constructor; auto. now apply field_sql_ok.
Qed.
Print Assumptions C31_write.
(** Column by column. *)
Theorem C31_write_pairs : forall (resolve : resolver) U M (sem : ty -> codec U) s g (o : @object U M) b vs,
  compiles resolve s -> impl_dbobject resolve s = Ok g -> b = true \/ do_auto g = true ->
  non_auto_values sem g o b = Ok vs ->
  Forall2 (fun col v => exists f, In f (st_fields s) /\ col = column_of f /\ stores sem o f v) (do_insert g) vs
  /\ (do_auto g = false -> do_insert g = dr_columns (do_result g)).
Proof.
  intros resolve U M sem s g o b vs Hc H Hb Hv.
  pose proof (C31_columns _ _ _ Hc H) as (Hd & Hi & Hw).
  apply (C31_write resolve U M sem s g o b vs Hc H Hb) in Hv. split.
  - rewrite Hi.
    assert (Hin : forall f, In f (written_fields resolve s) -> In f (st_fields s)).
    { intros f Hf. apply Hw in Hf as [Hf _]. unfold row_fields in Hf. now apply filter_In in Hf. }
    clear - Hv Hin. induction Hv as [|f v fs vs Hf Hr IH]; cbn; constructor.
    + exists f. split; [apply Hin; now left|]. split; [reflexivity|exact Hf].
    + apply IH. intros g0 Hg. apply Hin. now right.
  - intros Ha. rewrite Hi, Hd. f_equal. apply dbobject_ok in H. destruct Hc as [Hn _].
    rewrite written_plain. eapply shape_row; eauto.
Qed.
Print Assumptions C31_write_pairs.

(** Reading a row gives every field the value of its own column, and every
    many-to-many field the relation of this object. *)
Theorem C31_read : forall (resolve : resolver) U M (sem : ty -> codec U) (new : M) init s g row o,
  compiles resolve s -> impl_dbobject resolve s = Ok g ->
  from_row sem new init (do_result g) (do_pk g) row = Ok o ->
  map fst o = map sf_ident (st_fields s)
  /\ (forall j f, nth_error (row_fields resolve s) j = Some f ->
        nth_error (dr_columns (do_result g)) j = Some (column_of f)
        /\ exists v u, br_get row j (cd_type _ (sem (sf_ty f))) = Ok v /\ cd_from _ (sem (sf_ty f)) v = Ok u
                       /\ obj_get o (sf_ident f) = Some (FV u))
  /\ (forall f, In f (relation_fields resolve s) -> exists owner,
        stores sem o (do_pk g) owner
        /\ obj_get o (sf_ident f) =
             Some (FM (init new (do_table g ++ "_" ++ strip_raw (sf_ident f) ++ "_Many")%string owner
                            (cd_type _ (sem (sf_ty (do_pk g))))))).
Proof.
  intros resolve U M sem new init s g row o Hc H Hr.
  pose proof (C31_columns _ _ _ Hc H) as (Hd & _).
  pose proof (C31_key _ _ _ H) as (Hk & _).
  apply dbobject_ok in H. destruct H.
  destruct (from_row_ok resolve sem new init s _ _ row o Hc Hk sh_result Hr) as (_ & H1 & H2 & H3).
  split; [exact H1|]. split.
  - intros j f Hj. split; [rewrite Hd; now apply map_nth_error|].
    destruct (H2 j f Hj) as (u & (v & Hv & Hu) & Hg). eauto.
  - intros f Hf. destruct (H3 f Hf) as (ow & Ho & Hg). exists ow. split; [exact Ho|].
    rewrite sh_table. exact Hg.
Qed.
Print Assumptions C31_read.

(** A row of another length is refused. *)
Theorem C31_read_length : forall (resolve : resolver) U M (sem : ty -> codec U) (new : M) init s g row,
  compiles resolve s -> impl_dbobject resolve s = Ok g ->
  br_len row <> length (dr_columns (do_result g)) ->
  from_row sem new init (do_result g) (do_pk g) row = Err BoundsError.
Proof.
  intros resolve U M sem new init s g row Hc H Hl. pose proof (C31_columns _ _ _ Hc H) as (Hd & _).
  apply dbobject_ok in H. destruct H. apply dataresult_ok in sh_result as (_ & H2 & _).
  unfold from_row. rewrite H2. rewrite Hd, map_length in Hl.
  destruct (Nat.eqb_spec (br_len row) (length (row_fields resolve s))); [contradiction|reflexivity].
Qed.
Print Assumptions C31_read_length.

(** Writing an object and reading the row back reconstructs every field. *)
Theorem C31_round_trip : forall (resolve : resolver) U M (sem : ty -> codec U) (new : M) init s g (o : @object U M) row,
  compiles resolve s -> impl_dbobject resolve s = Ok g ->
  (forall f u v, In f (row_fields resolve s) -> obj_get o (sf_ident f) = Some (FV u) ->
     cd_to _ (sem (sf_ty f)) u = Ok v -> cd_from _ (sem (sf_ty f)) v = Ok u) ->
  br_len row = length (row_fields resolve s) ->
  (forall j f, nth_error (row_fields resolve s) j = Some f ->
     exists v, stores sem o f v /\ br_get row j (cd_type _ (sem (sf_ty f))) = Ok v) ->
  exists o', from_row sem new init (do_result g) (do_pk g) row = Ok o'
    /\ (forall f, In f (row_fields resolve s) -> obj_get o' (sf_ident f) = obj_get o (sf_ident f))
    /\ (forall f, In f (relation_fields resolve s) -> exists owner,
          stores sem o (do_pk g) owner
          /\ obj_get o' (sf_ident f) =
               Some (FM (init new (do_table g ++ "_" ++ strip_raw (sf_ident f) ++ "_Many")%string owner
                              (cd_type _ (sem (sf_ty (do_pk g))))))).
Proof.
  intros resolve U M sem new init s g o row Hc H Hlaw Hl Hrow.
  pose proof (C31_key _ _ _ H) as (Hk & _).
  assert (Hpk : In (do_pk g) (row_fields resolve s)).
  { unfold row_fields. apply filter_In. split; [now destruct Hk|]. destruct Hc as [_ Hc]. now rewrite (Hc _ Hk). }
  assert (Hread : forall j f, nth_error (row_fields resolve s) j = Some f ->
            exists u, read sem row j f u /\ obj_get o (sf_ident f) = Some (FV u) /\
                      forall u', read sem row j f u' -> u' = u).
  { intros j f Hj. destruct (Hrow j f Hj) as (v & (u & Hu & Hv) & Hg). exists u.
    pose proof (nth_error_In _ _ Hj) as Hin. pose proof (Hlaw f u v Hin Hu Hv) as Hfrom.
    split; [exists v; auto|]. split; [exact Hu|]. intros u' (v' & Hg' & Hf'). congruence. }
  pose proof (dbobject_ok _ _ _ H) as [].
  apply In_nth_error in Hpk as (jp & Hjp). destruct (Hrow jp _ Hjp) as (pv & (pu & Hpu & Hpv) & Hpg).
  destruct (from_row_total resolve sem new init s _ (do_pk g) row pv Hc Hk sh_result Hl) as (o' & Ho').
  - intros j f Hj. destruct (Hread j f Hj) as (u & Hu & _). eauto.
  - intros j u Hj Hu. destruct (Hrow j _ Hj) as (v & (u0 & Hu0 & Hv) & Hg).
    destruct (Hread j _ Hj) as (u1 & _ & Hu1 & Hun). rewrite (Hun u Hu).
    congruence.
  - exists o'. split; [exact Ho'|].
    pose proof (C31_read _ _ _ sem new init s g row o' Hc H Ho') as (_ & H2 & H3).
    assert (Hrf : forall f, In f (row_fields resolve s) -> obj_get o' (sf_ident f) = obj_get o (sf_ident f)).
    { intros f Hf. apply In_nth_error in Hf as (j & Hj).
      destruct (H2 j f Hj) as (_ & v & u & Hv & Hu & Hg).
      destruct (Hread j f Hj) as (u1 & _ & Hu1 & Hun). rewrite Hg, Hu1.
      rewrite (Hun u); [reflexivity|]. exists v; auto. }
    split; [exact Hrf|]. intros f Hf. destruct (H3 f Hf) as (ow & (u & Hu & Hto) & Hg).
    exists ow. split; [|exact Hg]. exists u. split; [|exact Hto].
    rewrite <- Hrf; [exact Hu|]. now apply nth_error_In in Hjp.
Qed.
Print Assumptions C31_round_trip.

(** The expressions used in filters name the field's own column or relation. *)
Theorem C31_field_expressions : forall (resolve : resolver) s g, impl_dbobject resolve s = Ok g ->
  Forall2 (fun f e => fst e = sf_ident f /\
             match snd e with
             | ColumnExpr c t => many_like resolve f = false /\ (c, t) = column_of f
             | ManyExpr tb t => wraps resolve "Many" (sf_ty f) t
                                /\ tb = (do_table g ++ "_" ++ strip_raw (sf_ident f) ++ "_Many")%string
             end) (st_fields s) (do_fields g).
Proof.
  intros resolve s g H. apply dbobject_ok in H. destruct H.
  clear - sh_fields sh_table.
  induction sh_fields as [|f e fs es Hf Hr IH]; constructor; [|exact IH].
  destruct Hf as [H1 H2]. split; [exact H1|]. destruct (snd e); [exact H2|].
  destruct H2 as [H2 ->]. split; [exact H2|]. now rewrite sh_table.
Qed.
Print Assumptions C31_field_expressions.

(** An example: a model with every kind of field. *)
Definition t_gen (n : string) (a : ty) : ty := TPath false [] n (Some [GType a]).
Definition f_plain (n : string) (t : ty) : sfield := {| sf_ident := n; sf_ty := t; sf_attrs := [] |}.
Definition post : sdef :=
  {| st_ident := "Post"; st_attrs := [AttrStruct "derive(Clone)"; AttrTable "posts"];
     st_fields := [ f_plain "title" (bare "String");
                    f_plain "tags" (t_gen "Many" (TPath false ["tag"] "Tag" None));
                    f_plain "id" (TPath false ["butane"] "AutoPk" (Some [GType (bare "i64")]));
                    {| sf_ident := "r#type"; sf_ty := t_gen "Option" (bare "i32");
                       sf_attrs := [AttrUnique; AttrDefault (Some (LitInt 7))] |};
                    f_plain "blog" (t_gen "Option" (t_gen "ForeignKey" (bare "Blog"))) ] |}.
Definition post_code : dbobject :=
  match impl_dbobject table_resolve post with
  | Ok g => g
  | _ => {| do_result := {| dr_columns := []; dr_len := 0; dr_rows := []; dr_many := [] |}; do_table := "";
            do_pkcol := ""; do_pk := f_plain "" (bare ""); do_auto := false; do_insert := []; do_values := [];
            do_values_no_pk := []; do_save_many := []; do_fields := [] |}
  end.
Example C31_case : compiles table_resolve post /\ impl_dbobject table_resolve post = Ok post_code
  /\ map fst (dr_columns (do_result post_code)) = ["title"; "id"; "type"; "blog"]
  /\ map fst (do_insert post_code) = ["title"; "type"; "blog"]
  /\ do_table post_code = "posts" /\ do_pkcol post_code = "id" /\ do_auto post_code = true
  /\ do_save_many post_code = [("tags", "posts_tags_Many")].
Proof.
  split.
  - split.
    + cbn. repeat (constructor; [cbn; intuition discriminate|]). constructor.
    + intros pk Hk. apply (key_field_pk post) in Hk.
      * vm_compute in Hk. inversion Hk. reflexivity.
      * cbn. repeat (constructor; [cbn; intuition discriminate|]). constructor.
  - repeat split; vm_compute; reflexivity.
Qed.
(** An object of that model, written and read back.  The foreign key is an i64. *)
Definition post_sem (t : ty) : codec rvalue :=
  rty_codec (match t with
             | TPath _ _ "String" _ => RString
             | TPath _ _ "AutoPk" _ => RAutoPk (RInt I64)
             | TPath _ _ "Option" (Some [GType (TPath _ _ "i32" _)]) => ROption (RInt I32)
             | _ => ROption (RInt I64)
             end).
Definition post_object : @object rvalue (option (string * SqlVal)) :=
  [ ("title", FV (existT rust RString "hello"));
    ("tags", FM (Some ("posts_tags_Many", VBigInt 12)));
    ("id", FV (existT rust (RAutoPk (RInt I64)) (Some 12%Z)));
    ("r#type", FV (existT rust (ROption (RInt I32)) None));
    ("blog", FV (existT rust (ROption (RInt I64)) (Some 3%Z))) ].
Example C31_case_values :
  non_auto_values post_sem post_code post_object false = Ok [VText "hello"; VNull; VBigInt 3]
  /\ from_row post_sem None (fun _ tb ow _ => Some (tb, ow)) (do_result post_code) (do_pk post_code)
       {| br_len := 4; br_get := fun i _ => match nth_error [VText "hello"; VBigInt 12; VNull; VBigInt 3] i with
                                            | Some v => Ok v | None => Err BoundsError end |}
     = Ok post_object.
Proof. split; vm_compute; reflexivity. Qed.
Example C31_case_law : forall f u v, In f (row_fields table_resolve post) ->
  obj_get post_object (sf_ident f) = Some (FV u) ->
  cd_to _ (post_sem (sf_ty f)) u = Ok v -> cd_from _ (post_sem (sf_ty f)) v = Ok u.
Proof.
  intros f u v Hf. vm_compute in Hf.
  destruct Hf as [<-|[<-|[<-|[<-|[]]]]]; intros Hu Hv; vm_compute in Hu; inversion Hu; subst u;
    vm_compute in Hv; inversion Hv; subst v; vm_compute; reflexivity.
Qed.
(** Refused: an automatic field beside the key, and one over text. *)
Example C31_case_refused :
  (exists e, impl_dbobject table_resolve
     {| st_ident := "A"; st_attrs := [];
        st_fields := [f_plain "id" (bare "i64"); f_plain "n" (t_gen "AutoPk" (bare "i64"))] |} = Err e)
  /\ (exists e, impl_dbobject table_resolve
     {| st_ident := "A"; st_attrs := []; st_fields := [f_plain "id" (t_gen "AutoPk" (bare "String"))] |} = Err e)
  /\ (exists e, impl_dbobject table_resolve
     {| st_ident := "A"; st_attrs := []; st_fields := [f_plain "n" (bare "i64")] |} = Err e).
Proof. repeat split; eexists; vm_compute; reflexivity. Qed.

(** * C45: derived field types *)

(** A value of a simple enum survives the round trip; its text is its name. *)
Theorem C45_enum_round_trip : forall vs v, NoDup (map strip_raw vs) -> In v vs ->
  enum_to_sql vs v = Ok (VText (strip_raw v)) /\ enum_from_sql vs (VText (strip_raw v)) = Ok v.
Proof.
  intros vs v Hn Hin. cbn [enum_from_sql]. induction vs as [|a vs IH]; [contradiction|].
  cbn in Hn. inversion Hn as [|? ? Hx Hn']; subst. cbn.
  destruct Hin as [->|Hin].
  - now rewrite !String.eqb_refl.
  - destruct (String.eqb_spec a v) as [->|Hne].
    + exfalso. apply Hx. now apply in_map.
    + destruct (String.eqb_spec (strip_raw a) (strip_raw v)) as [E|_].
      * exfalso. apply Hx. rewrite E. now apply in_map.
      * now apply IH.
Qed.
Print Assumptions C45_enum_round_trip.
(** Text that names no variant is rejected, and so is any other value. *)
Theorem C45_enum_unknown : forall vs s, (forall v, In v vs -> strip_raw v <> s) ->
  enum_from_sql vs (VText s) = Err (UnknownEnumVariant s).
Proof.
  intros vs s H. cbn. induction vs as [|a vs IH]; [reflexivity|]. cbn.
  destruct (String.eqb_spec (strip_raw a) s) as [E|_]; [now apply H in E; [|left]|].
  apply IH. intros v Hv. apply H. now right.
Qed.
Print Assumptions C45_enum_unknown.
Theorem C45_enum_accepted : forall vs v x, enum_from_sql vs v = Ok x ->
  In x vs /\ v = VText (strip_raw x).
Proof.
  intros vs v x. destruct v; cbn; try discriminate.
  induction vs as [|a vs IH]; cbn; [discriminate|].
  destruct (String.eqb_spec (strip_raw a) s) as [E|_].
  - intros H; inversion H; subst. auto.
  - intros H. destruct (IH H) as [H1 H2]. auto.
Qed.
Print Assumptions C45_enum_accepted.
Theorem C45_enum_other_value : forall vs v, (forall s, v <> VText s) ->
  enum_from_sql vs v = Err CannotConvertSqlVal.
Proof. intros vs v H. destruct v; cbn; try reflexivity. now destruct (H s). Qed.
Print Assumptions C45_enum_other_value.
(** Which items are stored how. *)
Theorem C45_enum_derived : forall vs,
  (forall v, In v vs -> snd v = true) -> derive_field_type (IEnum vs) = Ok (DEnum (map fst vs)).
Proof.
  intros vs H. unfold derive_field_type.
  replace (existsb (fun v => negb (snd v)) vs) with false; [reflexivity|].
  symmetry. apply not_true_is_false. intros E. apply existsb_exists in E as (v & Hv & E).
  rewrite (H v Hv) in E. discriminate.
Qed.
Print Assumptions C45_enum_derived.
Theorem C45_enum_with_data : forall vs v, In v vs -> snd v = false ->
  derive_field_type (IEnum vs) = Ok DJson.
Proof.
  intros vs v Hin H. unfold derive_field_type.
  replace (existsb (fun v => negb (snd v)) vs) with true; [reflexivity|].
  symmetry. apply existsb_exists. exists v. now rewrite H.
Qed.
Print Assumptions C45_enum_with_data.
(** A wrapper of a type that has a SQL type of its own is stored with that type
    and converts like it. *)
Theorem C45_newtype : forall (resolve : resolver) t r, own_names resolve -> spells resolve t r ->
  (forall a, ~ wraps resolve "Option" t a) -> (forall a, ~ wraps resolve "AutoPk" t a) ->
  derive_field_type (ITuple [t]) = Ok (DNewtype t (rsqltype r)).
Proof.
  intros resolve t r Ho Hs H1 H2.
  assert (Hp : primitive_sql_type t = Some (KnownId (TyId (rsqltype r)))).
  { inversion Hs; subst; try reflexivity; try (destruct lead; reflexivity);
      try (unfold primitive_sql_type; cbn; rewrite !andb_false_r; reflexivity).
    - now destruct (H1 a). - now destruct (H2 a). }
  unfold derive_field_type.
  assert (extract_path t = Ok t) as ->.
  { destruct t; [reflexivity|]. inversion Hs; subst.
    - now destruct (H1 a). - now destruct (H2 a). }
  cbn [obind]. rewrite Hp. reflexivity.
Qed.
Print Assumptions C45_newtype.
Theorem C45_newtype_round_trip : forall r x, single_option r -> rust_ok r x ->
  let c := newtype_codec (rsqltype r) (rty_codec r) in
  exists v, cd_to _ c (existT rust r x) = Ok v /\ cd_from _ c v = Ok (existT rust r x).
Proof.
  intros r x Hs Hx. cbn. destruct (conv_roundtrip r Hs x Hx) as (v & Hv & Hf).
  exists v. split; [exact Hv|]. now rewrite Hf.
Qed.
Print Assumptions C45_newtype_round_trip.
(** Other items are stored as JSON and survive if serde's text of them does. *)
Theorem C45_json : forall T (ser : T -> option string) (de : string -> option T) x j,
  ser x = Some j -> de j = Some x ->
  cd_to _ (json_codec ser de) x = Ok (VJson j) /\ cd_from _ (json_codec ser de) (VJson j) = Ok x.
Proof. intros T ser de x j Hs Hd. cbn. now rewrite Hs, Hd. Qed.
Print Assumptions C45_json.
(** What is written for a value is of the type that the derive records for it. *)
Theorem C45_recorded_kind : forall n vs t r,
  derived_record n (DEnum vs) = (CustomType n, KnownId (TyId (cd_type _ (enum_codec vs))))
  /\ (forall x v, cd_to _ (enum_codec vs) x = Ok v -> is_compatible v (cd_type _ (enum_codec vs)) false = true)
  /\ derived_record n DJson = (CustomType n, KnownId (TyId TJson))
  /\ (forall T (ser : T -> option string) de x v, cd_to _ (json_codec ser de) x = Ok v -> is_compatible v TJson false = true)
  /\ derived_record n (DNewtype t (rsqltype r)) = (CustomType n, KnownId (TyId (rsqltype r)))
  /\ (forall x v, single_option r -> ConvSpec.is_option r = false -> cd_to _ (newtype_codec (rsqltype r) (rty_codec r)) (existT rust r x) = Ok v ->
        is_compatible v (rsqltype r) false = true).
Proof.
  intros n vs t r. split; [reflexivity|]. split.
  { intros x v. cbn. induction vs as [|a vs IH]; cbn; [discriminate|]. destruct (String.eqb a x); [now intros [= <-]|exact IH]. }
  split; [reflexivity|]. split.
  { intros T ser de x v. cbn. destruct (ser x); [now intros [= <-]|discriminate]. }
  split; [reflexivity|]. intros x v So Ho E. cbn in E. rewrite <- Ho. now apply (conv_kind r So x v).
Qed.
Print Assumptions C45_recorded_kind.
(** JSON of another shape stored in the column makes reading it panic. *)
Theorem C45_json_mismatch_refuted : exists (T : Type) (ser : T -> option string) (de : string -> option T) v,
  (forall x j, ser x = Some j -> de j = Some x) /\ cd_from _ (json_codec ser de) v = Panic.
Proof.
  exists bool, (fun b : bool => Some (if b then "true" else "false")),
    (fun s => if String.eqb s "true" then Some true else if String.eqb s "false" then Some false else None), (VJson "{}").
  split; [|reflexivity]. intros [|] j H; inversion H; reflexivity.
Qed.
Print Assumptions C45_json_mismatch_refuted.
Example C45_case : NoDup (map strip_raw ["Euros"; "r#Dollars"])
  /\ derive_field_type (IEnum [("Euros", true); ("r#Dollars", true)]) = Ok (DEnum ["Euros"; "r#Dollars"])
  /\ enum_to_sql ["Euros"; "r#Dollars"] "r#Dollars" = Ok (VText "Dollars")
  /\ enum_from_sql ["Euros"; "r#Dollars"] (VText "euros") = Err (UnknownEnumVariant "euros")
  /\ derive_field_type (ITuple [bare "u32"]) = Ok (DNewtype (bare "u32") TBigInt)
  /\ derive_field_type (ITuple [bare "u32"; bare "bool"]) = Ok DJson.
Proof.
  split; [cbn; repeat constructor; cbn; intuition discriminate|]. repeat split; vm_compute; reflexivity.
Qed.

(** * C46: many-to-many tables *)

(** The tables recorded for the many-to-many fields are those the generated code
    reads and writes, in order.  Each has an owner column with the type recorded
    for the key of the model's own table and a reference to it, and a has column
    whose type is the key of the other model, with a reference to it. *)
Theorem C46_table : forall (resolve : resolver) s ts types g, compiles resolve s ->
  model_macro resolve s = Ok (ts, types, g) ->
  exists main ms, ts = main :: ms
  /\ do_save_many g = dr_many (do_result g)
  /\ map fst (dr_many (do_result g)) = map sf_ident (relation_fields resolve s)
  /\ map snd (dr_many (do_result g)) = map t_name ms
  /\ Forall2 (fun f t => exists other pkc owner has,
        wraps resolve "Many" (sf_ty f) other
        /\ In pkc (t_cols main) /\ c_pk pkc = true
        /\ t_cols t = [owner; has]
        /\ c_name owner = "owner" /\ c_type owner = c_type pkc /\ c_nullable owner = false
        /\ c_ref owner = Some (RefLiteral {| rl_table := t_name main; rl_column := c_name pkc |})
        /\ c_name has = "has" /\ c_type has = Deferred (PK (strip_raw (last_ident other))) /\ c_nullable has = false
        /\ c_ref has = Some (RefDeferred (Deferred (PK (strip_raw (last_ident other)))))
        /\ t_name t = (t_name main ++ "_" ++ strip_raw (sf_ident f) ++ "_Many")%string
        /\ Forall (fun c => c_pk c = false /\ c_auto c = false /\ c_unique c = false /\ c_default c = None) (t_cols t))
     (relation_fields resolve s) ms.
Proof.
  intros resolve s ts types g Hc H. unfold model_macro in H. inv_ok H. inv_ok H. inversion H; subst; clear H.
  pose proof Hc as [Hn Hk].
  destruct (create_ok _ _ _ E Hn) as (pk & main & ms & Hpk & -> & Hname & Hcols & Hms).
  pose proof (dbobject_ok _ _ _ E0) as []. exists main, ms.
  apply dataresult_ok in sh_result as (_ & _ & _ & Hmany).
  split; [reflexivity|]. split; [congruence|]. rewrite Hmany, !map_map. split; [reflexivity|].
  assert (Hkf : key_field s pk) by now apply pk_field_spec.
  assert (Hrow : In pk (row_fields resolve s)).
  { unfold row_fields. apply filter_In. split; [now destruct Hkf|]. now rewrite (Hk _ Hkf). }
  assert (Hpkc : exists pkc, In pkc (t_cols main) /\ field_column resolve pk pk = Ok pkc).
  { clear - Hcols Hrow. induction Hcols as [|f c fs cs Hf Hr IH]; [contradiction|].
    destruct Hrow as [->|Hrow]; [exists c; split; [now left|auto]|].
    destruct (IH Hrow) as (x & Hx & Hx'). exists x. split; [now right|auto]. }
  destruct Hpkc as (pkc & Hpkc & Hpc). pose proof (field_column_ok _ _ _ _ Hpc) as [Hcn Hct].
  assert (Hpp : c_pk pkc = true).
  { apply (recorded_ok resolve s) in Hpc; auto; [|now destruct Hkf|now destruct Hkf].
    now apply (rec_pk _ _ _ _ Hpc). }
  cbn [snd]. split.
  - clear - Hms. induction Hms as [|f m fs ms Hf Hr IH]; cbn; [reflexivity|]. f_equal; [|exact IH].
    apply many_table_ok in Hf as (a & pt & _ & _ & ->). reflexivity.
  - clear - Hms Hpkc Hct Hpp Hcn Hname. induction Hms as [|f m fs ms Hf Hr IH]; constructor; auto.
    apply many_table_ok in Hf as (a & pt & Ha & Hpt & ->).
    exists a, pkc. eexists. eexists. split; [exact Ha|]. split; [exact Hpkc|]. split; [exact Hpp|].
    split; [reflexivity|]. cbn. rewrite Hname, Hcn. rewrite Hpt in Hct. inversion Hct. repeat split. repeat constructor.
Qed.
Print Assumptions C46_table.
(** The filter expressions use the same tables. *)
Theorem C46_filter : forall (resolve : resolver) s g, impl_dbobject resolve s = Ok g ->
  forall f e, In (f, e) (combine (st_fields s) (do_fields g)) -> forall tb t, snd e = ManyExpr tb t ->
    In (sf_ident f, tb) (do_save_many g).
Proof.
  intros resolve s g H f e Hin tb t He. apply dbobject_ok in H. destruct H. rewrite sh_save.
  assert (Hf : expr_of resolve s f e /\ In f (st_fields s)).
  { clear - sh_fields Hin. induction sh_fields as [|x y l l' Hx Hr IH]; [contradiction|].
    cbn in Hin. destruct Hin as [Hin|Hin].
    - inversion Hin; subst. split; [exact Hx|now left].
    - destruct (IH Hin). split; [auto|now right]. }
  destruct Hf as [[_ Hf] Hfs]. rewrite He in Hf. destruct Hf as [Hw ->].
  apply (in_map (fun f => (sf_ident f, many_table_lit s f))). unfold relation_fields.
  apply filter_In. split; [exact Hfs|]. apply wrapped_spec. eauto.
Qed.
Print Assumptions C46_filter.
(** Two models can get the same many-to-many table. *)
Theorem C46_shared_table_refuted : exists s1 s2 ts1 ts2 ty1 ty2 g1 g2 f1 f2 tb,
  compiles table_resolve s1 /\ compiles table_resolve s2
  /\ model_macro table_resolve s1 = Ok (ts1, ty1, g1) /\ model_macro table_resolve s2 = Ok (ts2, ty2, g2)
  /\ do_table g1 <> do_table g2
  /\ In (f1, tb) (do_save_many g1) /\ In (f2, tb) (do_save_many g2).
Proof.
  pose (s1 := {| st_ident := "Post"; st_attrs := [];
                 st_fields := [f_plain "id" (bare "i64"); f_plain "old_tags" (t_gen "Many" (bare "Tag"))] |}).
  pose (s2 := {| st_ident := "Post_old"; st_attrs := [];
                 st_fields := [f_plain "id" (bare "i64"); f_plain "tags" (t_gen "Many" (bare "Tag"))] |}).
  assert (forall s, s = s1 \/ s = s2 -> compiles table_resolve s) as Hc.
  { intros s Hs. assert (Hn : NoDup (map (fun f => strip_raw (sf_ident f)) (st_fields s))).
    { destruct Hs as [->| ->]; cbn; repeat (constructor; [cbn; intuition discriminate|]); constructor. }
    split; [exact Hn|]. intros pk Hk. apply (key_field_pk s) in Hk; [|exact Hn].
    destruct Hs as [->| ->]; vm_compute in Hk; inversion Hk; reflexivity. }
  exists s1, s2. do 6 eexists. exists "old_tags", "tags", "Post_old_tags_Many".
  split; [apply Hc; auto|]. split; [apply Hc; auto|].
  split; [vm_compute; reflexivity|]. split; [vm_compute; reflexivity|].
  split; [cbn; discriminate|]. split; now left.
Qed.
Print Assumptions C46_shared_table_refuted.
Example C46_case : exists ts types g, model_macro table_resolve post = Ok (ts, types, g)
  /\ map t_name ts = ["posts"; "posts_tags_Many"].
Proof. do 3 eexists. split; vm_compute; reflexivity. Qed.

(** * C47: the recorded table *)

(** The recorded table has the columns the code selects, in the same order; each
    column has the attributes of its field; exactly the key is the primary key. *)
Theorem C47_table : forall (resolve : resolver) s ts types g, compiles resolve s ->
  model_macro resolve s = Ok (ts, types, g) ->
  exists main ms, ts = main :: ms
  /\ t_name main = do_table g
  /\ map c_name (t_cols main) = map fst (dr_columns (do_result g))
  /\ Forall2 (recorded resolve (do_pk g)) (row_fields resolve s) (t_cols main)
  /\ (exists pkc, filter c_pk (t_cols main) = [pkc] /\ c_name pkc = do_pkcol g /\ c_auto pkc = do_auto g).
Proof.
  intros resolve s ts types g Hc H. unfold model_macro in H. inv_ok H. inv_ok H. inversion H; subst; clear H.
  pose proof Hc as [Hn Hk].
  destruct (create_ok _ _ _ E Hn) as (pk & main & ms & Hpk & -> & Hname & Hcols & Hms).
  pose proof (C31_columns _ _ _ Hc E0) as (Hd & _).
  pose proof (dbobject_ok _ _ _ E0) as [].
  assert (pk = do_pk g) by congruence. subst pk.
  assert (Hkf : key_field s (do_pk g)) by now apply pk_field_spec.
  assert (Hrec : Forall2 (recorded resolve (do_pk g)) (row_fields resolve s) (t_cols main)).
  { assert (Hin : forall f, In f (row_fields resolve s) -> In f (st_fields s)).
    { intros f Hf. unfold row_fields in Hf. now apply filter_In in Hf. }
    clear - Hcols Hin Hn Hkf. induction Hcols as [|f c fs cs Hf Hr IH]; constructor.
    - apply (recorded_ok resolve s); auto; [apply Hin; now left|now destruct Hkf].
    - apply IH. intros x Hx. apply Hin. now right. }
  exists main, ms. split; [reflexivity|]. split; [congruence|]. split.
  { rewrite Hd, map_map. clear - Hrec. induction Hrec as [|f c fs cs Hf Hr IH]; cbn; [reflexivity|].
    rewrite (rec_name _ _ _ _ Hf). now rewrite IH. }
  split; [exact Hrec|].
  assert (Hrow : In (do_pk g) (row_fields resolve s)).
  { unfold row_fields. apply filter_In. split; [now destruct Hkf|]. now rewrite (Hk _ Hkf). }
  assert (Hnd : NoDup (row_fields resolve s)).
  { unfold row_fields. apply NoDup_filter. now apply NoDup_map_inv in Hn. }
  rewrite sh_pkcol, sh_auto. clear - Hrec Hrow Hnd.
  induction Hrec as [|f c fs cs Hf Hr IH]; [contradiction|].
  inversion Hnd as [|? ? Hx Hn']; subst. cbn [filter].
  destruct Hrow as [->|Hrow].
  - rewrite (proj2 (rec_pk _ _ _ _ Hf) eq_refl). exists c. split; [|split; [apply (rec_name _ _ _ _ Hf)|]].
    + f_equal. clear - Hr Hx. induction Hr as [|g0 c0 gs cs Hg Hr IH]; [reflexivity|]. cbn.
      destruct (c_pk c0) eqn:E; [|apply IH; intros H; apply Hx; now right].
      apply (rec_pk _ _ _ _ Hg) in E. exfalso. apply Hx. now left.
    + pose proof (rec_auto _ _ _ _ Hf) as Ha. rewrite <- wrapped_spec in Ha.
      unfold auto_like. destruct (c_auto c), (wrapped resolve "AutoPk" (sf_ty (do_pk g))); auto;
        [symmetry|]; apply Ha; reflexivity.
  - destruct (c_pk c) eqn:E; [|now apply IH].
    apply (rec_pk _ _ _ _ Hf) in E. subst. contradiction.
Qed.
Print Assumptions C47_table.

(** A field whose type has a SQL type of its own is recorded with that type, the
    one the generated code asks for; a foreign key with the type of the other
    model's key. *)
Theorem C47_type : forall (resolve : resolver) s ts types g, compiles resolve s -> own_names resolve ->
  model_macro resolve s = Ok (ts, types, g) ->
  exists main ms, ts = main :: ms /\
  Forall2 (fun f c =>
      (forall r, spells resolve (sf_ty f) r -> c_type c = KnownId (TyId (rsqltype r)))
      /\ (forall a, refers resolve (sf_ty f) a -> c_type c = Deferred (PK (strip_raw (last_ident a)))))
    (row_fields resolve s) (t_cols main).
Proof.
  intros resolve s ts types g Hc Ho H. unfold model_macro in H. inv_ok H. inv_ok H. inversion H; subst; clear H.
  destruct (create_ok _ _ _ E (proj1 Hc)) as (pk & main & ms & Hpk & -> & Hname & Hcols & Hms).
  exists main, ms. split; [reflexivity|].
  clear - Hcols Ho. induction Hcols as [|f c fs cs Hf Hr IH]; constructor; auto.
  apply field_column_ok in Hf as [_ Hf]. split.
  - intros r Hr'. rewrite (spells_known _ _ _ Ho Hr') in Hf. now inversion Hf.
  - intros a Ha. rewrite (refers_known _ _ _ Ho Ha) in Hf. now inversion Hf.
Qed.
Print Assumptions C47_type.
(** A renamed model is recorded so that references by its type name find it. *)
Theorem C47_renamed : forall (resolve : resolver) s ts types g, model_macro resolve s = Ok (ts, types, g) ->
  match types with
  | [] => do_table g = strip_raw (st_ident s)
  | l => l = [(PK (strip_raw (st_ident s)), Deferred (PK (do_table g)))]
  end.
Proof.
  intros resolve s ts types g H. unfold model_macro in H. inv_ok H. inv_ok H. inversion H; subst; clear H.
  apply dbobject_ok in E0. destruct E0. rewrite sh_table. unfold recorded_types, table_name.
  destruct (config_table s); reflexivity.
Qed.
Print Assumptions C47_renamed.
(** A field whose derived type is written with its module is recorded under a
    name nothing is recorded for. *)
Theorem C47_qualified_type_refuted : exists t d key ty c,
  derive_field_type (IEnum [("Euros", true)]) = Ok d
  /\ derived_record "Currency" d = (key, ty)
  /\ t = TPath false ["money"] "Currency" None
  /\ field_column table_resolve (f_plain "price" t) (f_plain "id" (bare "i64")) = Ok c
  /\ c_type c <> Deferred key.
Proof.
  do 5 eexists. split; [reflexivity|]. split; [reflexivity|]. split; [reflexivity|].
  split; [vm_compute; reflexivity|]. cbn. discriminate.
Qed.
Print Assumptions C47_qualified_type_refuted.
(** Likewise for a derived type with a raw identifier. *)
Theorem C47_raw_type_refuted : exists d key ty c,
  derive_field_type (IEnum [("Euros", true)]) = Ok d
  /\ derived_record "r#type" d = (key, ty)
  /\ field_column table_resolve (f_plain "price" (bare "r#type")) (f_plain "id" (bare "i64")) = Ok c
  /\ c_type c <> Deferred key.
Proof.
  do 4 eexists. split; [reflexivity|]. split; [reflexivity|].
  split; [vm_compute; reflexivity|]. cbn. discriminate.
Qed.
Print Assumptions C47_raw_type_refuted.
(** A derived type named like a known one is recorded with the known type. *)
Theorem C47_shadowed_type_refuted : exists d c,
  derive_field_type (IEnum [("Low", true); ("High", true)]) = Ok d
  /\ field_column table_resolve (f_plain "v" (bare "Value")) (f_plain "id" (bare "i64")) = Ok c
  /\ c_type c <> KnownId (TyId (derived_type d)).
Proof. do 2 eexists. split; [reflexivity|]. split; [vm_compute; reflexivity|]. cbn. discriminate. Qed.
Print Assumptions C47_shadowed_type_refuted.
(** A derived type used by its bare name is found. *)
Theorem C47_derived_type : forall (resolve : resolver) n d f pk c,
  strip_raw n = n -> sf_ty f = bare n -> primitive_sql_type (bare n) = None ->
  field_column resolve f pk = Ok c ->
  derived_record n d = (CustomType n, KnownId (TyId (derived_type d))) /\ c_type c = Deferred (CustomType n).
Proof.
  intros resolve n d f pk c Hn Hf Hp H. split; [reflexivity|].
  apply field_column_ok in H as [_ H]. rewrite Hf in H. unfold bare in *.
  cbn [deferred_sql_type] in H. rewrite Hp in H.
  assert (Ht : ty_text (strip_ty (TPath false [] n None)) = n).
  { cbn. rewrite Hn. apply str_app_nil_r. }
  rewrite Ht in H. destruct (resolve false [] n); now inversion H.
Qed.
Print Assumptions C47_derived_type.
Example C47_case : own_names table_resolve /\ exists ts types g, model_macro table_resolve post = Ok (ts, types, g)
  /\ match ts with
     | main :: _ => map (fun c => (c_name c, c_type c, c_nullable c, c_pk c, c_auto c)) (t_cols main) =
         [("title", KnownId (TyId TText), false, false, false);
          ("id", KnownId (TyId TBigInt), false, true, true);
          ("type", KnownId (TyId TInt), true, false, false);
          ("blog", Deferred (PK "Blog"), true, false, false)]
     | [] => False
     end.
Proof.
  split.
  - intros lead quals name r H _. unfold table_resolve in H. destruct quals; [now inversion H|].
    destruct (existsb _ path_mappings); now inversion H.
  - do 3 eexists. split; vm_compute; reflexivity.
Qed.
