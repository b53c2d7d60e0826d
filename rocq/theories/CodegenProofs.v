(** Proofs about the generated model code. *)
From Verif Require Import Base SqlVal Adb Conv Codegen CodegenSpec.

Lemma obind_ok {A B} (x : outcome A) (f : A -> outcome B) r :
  obind x f = Ok r -> exists a, x = Ok a /\ f a = Ok r.
Proof. destruct x; cbn; intros H; try discriminate. eauto. Qed.
Lemma omap_ok {A B} (f : A -> B) (x : outcome A) r :
  omap f x = Ok r -> exists a, x = Ok a /\ r = f a.
Proof. destruct x; cbn; intros H; inversion H; eauto. Qed.

Ltac inv_ok H :=
  let a := fresh "a" in let E := fresh "E" in
  apply obind_ok in H; destruct H as (a & E & H).

Lemma omapm_ok {A B} (f : A -> outcome B) l r :
  omapm f l = Ok r -> Forall2 (fun x y => f x = Ok y) l r.
Proof.
  revert r; induction l as [|x l IH]; cbn; intros r H.
  - inversion H. constructor.
  - inv_ok H. inv_ok H. inversion H; subst. constructor; auto.
Qed.
Lemma omapm_forall2 {A B} (f : A -> outcome B) l r :
  Forall2 (fun x y => f x = Ok y) l r -> omapm f l = Ok r.
Proof. induction 1; cbn; [reflexivity|]. rewrite H; cbn. rewrite IHForall2. reflexivity. Qed.

Lemma filterm_ok {A} (f : A -> outcome bool) (g : A -> bool) l r :
  (forall x b, In x l -> f x = Ok b -> b = g x) -> filterm f l = Ok r -> r = filter g l.
Proof.
  revert r; induction l as [|x l IH]; cbn; intros r Hg H.
  - now inversion H.
  - inv_ok H. inv_ok H. inversion H; subst.
    rewrite (Hg x a (or_introl eq_refl) E). rewrite (IH a0); auto.
Qed.
Lemma filterm_all_ok {A} (f : A -> outcome bool) l r :
  filterm f l = Ok r -> forall x, In x l -> exists b, f x = Ok b.
Proof.
  revert r; induction l as [|y l IH]; cbn; intros r H x Hx; [contradiction|].
  inv_ok H. inv_ok H. destruct Hx as [<-|Hx]; eauto.
Qed.

Section P.
Variable resolve : bool -> list string -> string -> option string.
Notation type_argument := (type_argument resolve).
Notation wraps := (wraps resolve).
Notation wrapped := (wrapped resolve).

Lemma wrapped_spec w t : wrapped w t = true <-> exists a, wraps w t a.
Proof.
  split.
  - destruct t as [l q n [[|[[a b c d|s]|s] [|? ?]]|]|s]; cbn; try discriminate.
    destruct (resolve l q n) as [r|] eqn:E; [|discriminate].
    intros H; apply String.eqb_eq in H; subst r.
    exists (TPath a b c d). exists l, q, n. repeat split; auto. now exists a, b, c, d.
  - intros (a & l & q & n & -> & E & (l' & q' & n' & g & ->)). cbn. rewrite E. apply String.eqb_refl.
Qed.
Lemma wraps_fun w t a b : wraps w t a -> wraps w t b -> a = b.
Proof. intros (l & q & n & -> & _) (l' & q' & n' & H & _). now inversion H. Qed.
Lemma wraps_name w w' t a b : wraps w t a -> wraps w' t b -> w = w'.
Proof. intros (l & q & n & -> & E & _) (l' & q' & n' & H & E' & _). inversion H; subst. congruence. Qed.

Lemma type_argument_some t w a : type_argument t w = Ok (Some a) <-> wraps w t a.
Proof.
  split.
  - destruct t as [l q n args|s]; cbn; [|discriminate].
    destruct (resolve l q n) as [r|] eqn:E; [|discriminate].
    destruct (String.eqb_spec r w) as [->|]; [|discriminate].
    destruct args as [[|[[a' b c d|s]|s] [|? ?]]|]; try discriminate.
    intros H; inversion H; subst. exists l, q, n. repeat split; auto. now exists a', b, c, d.
  - intros (l & q & n & -> & E & (l' & q' & n' & g & ->)). cbn. rewrite E, String.eqb_refl. reflexivity.
Qed.
Lemma type_argument_none t w : type_argument t w = Ok None -> wrapped w t = false.
Proof.
  intros H. destruct (wrapped w t) eqn:E; [|reflexivity].
  apply wrapped_spec in E as (a & Ha). apply type_argument_some in Ha. congruence.
Qed.
Lemma type_argument_b t w o : type_argument t w = Ok o -> is_some o = wrapped w t.
Proof.
  destruct o as [a|]; cbn; intros H.
  - symmetry. apply wrapped_spec. exists a. now apply type_argument_some.
  - symmetry. now apply type_argument_none.
Qed.

Lemma is_auto_ok f b : is_auto resolve f = Ok b -> b = auto_like resolve f.
Proof. unfold is_auto. intros H. apply omap_ok in H as (o & H & ->). now apply type_argument_b. Qed.
Lemma is_option_ok f b : Codegen.is_option resolve f = Ok b -> b = wrapped "Option" (sf_ty f).
Proof. unfold Codegen.is_option. intros H. apply omap_ok in H as (o & H & ->). now apply type_argument_b. Qed.
Lemma foreign_ok t w o : foreign_sql_type resolve t w = Ok o ->
  is_some o = wrapped w t /\
  forall d, o = Some d -> exists a, wraps w t a /\ d = Deferred (PK (strip_raw (last_ident a))).
Proof.
  unfold foreign_sql_type. intros H. inv_ok H. inversion H; subst; clear H.
  split.
  - rewrite <- (type_argument_b _ _ _ E). now destruct a.
  - intros d. destruct a as [a|]; [|discriminate]. intros H; inversion H. exists a.
    split; [now apply type_argument_some|reflexivity].
Qed.
Lemma many_type_ok f o : many_sql_type resolve (sf_ty f) = Ok o ->
  is_some o = many_like resolve f /\
  forall d, o = Some d -> exists a, wraps "Many" (sf_ty f) a /\ d = Deferred (PK (strip_raw (last_ident a))).
Proof.
  unfold many_sql_type. intros H. inv_ok H.
  assert (a = sf_ty f) as -> by (destruct (sf_ty f); cbn in E; congruence).
  now apply foreign_ok.
Qed.
Lemma is_many_ok f b : is_many resolve f = Ok b -> b = many_like resolve f.
Proof. unfold is_many. intros H. apply omap_ok in H as (o & H & ->). now apply many_type_ok. Qed.
Lemma is_row_ok f b : is_row_field resolve f = Ok b -> b = negb (many_like resolve f).
Proof.
  unfold is_row_field. intros H. apply omap_ok in H as (o & H & ->). f_equal. now apply is_many_ok.
Qed.

(** * Key and table *)

Lemma has_pk_attr_spec f : has_pk_attr f = true <-> In AttrPk (sf_attrs f).
Proof.
  unfold has_pk_attr. rewrite existsb_exists. split.
  - intros (x & Hx & H). destruct x; try discriminate. exact Hx.
  - intros H. exists AttrPk. auto.
Qed.
Lemma is_unique_spec f : is_unique f = true <-> In AttrUnique (sf_attrs f).
Proof.
  unfold is_unique. rewrite existsb_exists. split.
  - intros (x & Hx & H). destruct x; try discriminate. exact Hx.
  - intros H. exists AttrUnique. auto.
Qed.
Lemma find_split {A} (p : A -> bool) l x :
  find p l = Some x -> exists a b, l = a ++ x :: b /\ p x = true /\ forall y, In y a -> p y = false.
Proof.
  induction l as [|y l IH]; cbn; [discriminate|].
  destruct (p y) eqn:E.
  - intros H; inversion H; subst. exists [], l. repeat split; auto. intros ? [].
  - intros H. destruct (IH H) as (a & b & -> & Hx & Ha). exists (y :: a), b. repeat split; auto.
    intros z [<-|Hz]; auto.
Qed.
Lemma pk_field_spec s pk : pk_field s = Some pk -> key_field s pk.
Proof.
  unfold pk_field, key_field. destruct (find has_pk_attr (st_fields s)) as [f|] eqn:E.
  - intros H; inversion H; subst. split; [now apply find_some in E|left].
    apply find_split in E as (a & b & E & Hp & Ha). exists a, b. split; [auto|split].
    + now apply has_pk_attr_spec.
    + intros y Hy Hin. apply has_pk_attr_spec in Hin. rewrite Ha in Hin; auto. discriminate.
  - intros H. split; [now apply find_some in H|right]. split.
    + apply find_some in H as [_ H]. now apply String.eqb_eq.
    + intros y Hy Hin. apply has_pk_attr_spec in Hin. rewrite (find_none _ _ E y Hy) in Hin. discriminate.
Qed.
Lemma distinct_ident s a b : NoDup (map (fun f => strip_raw (sf_ident f)) (st_fields s)) ->
  In a (st_fields s) -> In b (st_fields s) -> strip_raw (sf_ident a) = strip_raw (sf_ident b) -> a = b.
Proof.
  generalize (st_fields s) as l. induction l as [|x l IH]; cbn; intros Hn Ha Hb E; [contradiction|].
  inversion Hn as [|? ? Hx Hn']; subst.
  destruct Ha as [<-|Ha], Hb as [<-|Hb]; auto.
  - exfalso; apply Hx. rewrite E. now apply (in_map (fun f => strip_raw (sf_ident f))).
  - exfalso; apply Hx. rewrite <- E. now apply (in_map (fun f => strip_raw (sf_ident f))).
Qed.
Lemma find_app_none {A} (p : A -> bool) a b : (forall y, In y a -> p y = false) -> find p (a ++ b) = find p b.
Proof. induction a as [|x a IH]; cbn; intros H; [reflexivity|]. rewrite (H x (or_introl eq_refl)). apply IH; auto. Qed.
(** The key field is unique and found. *)
Lemma key_field_pk s pk : NoDup (map (fun f => strip_raw (sf_ident f)) (st_fields s)) ->
  key_field s pk -> pk_field s = Some pk.
Proof.
  intros Hn (Hin & [(l & r & E & Hp & Hl)|(Hi & Hl)]); unfold pk_field.
  - rewrite E, find_app_none; [cbn|].
    + now rewrite (proj2 (has_pk_attr_spec pk) Hp).
    + intros y Hy. destruct (has_pk_attr y) eqn:Ey; [|reflexivity].
      apply has_pk_attr_spec in Ey. now apply Hl in Ey.
  - destruct (find has_pk_attr (st_fields s)) as [f|] eqn:E.
    + apply find_some in E as [E1 E2]. apply has_pk_attr_spec in E2. now apply Hl in E2.
    + destruct (find (fun f => String.eqb (sf_ident f) "id") (st_fields s)) as [f|] eqn:E2.
      * apply find_some in E2 as [E3 E4]. apply String.eqb_eq in E4. f_equal.
        apply (distinct_ident s); auto. congruence.
      * pose proof (find_none _ _ E2 pk Hin) as H. cbn in H. rewrite Hi, String.eqb_refl in H. discriminate.
Qed.

Lemma config_last l acc :
  fold_left (fun acc a => match a with AttrTable n => Some n | _ => acc end) l acc =
  match find (fun a => match a with AttrTable _ => true | _ => false end) (rev l) with
  | Some (AttrTable n) => Some n
  | _ => acc
  end.
Proof.
  revert acc; induction l as [|x l IH] using rev_ind; intros acc; [reflexivity|].
  rewrite fold_left_app, rev_app_distr. cbn. destruct x as [n|t]; [reflexivity|]. apply IH.
Qed.
Lemma table_name_of s : table_of s (table_name s).
Proof.
  unfold table_name, config_table. rewrite config_last.
  destruct (find _ (rev (st_attrs s))) as [x|] eqn:E.
  - apply find_split in E as (a & b & E & Hx & Ha). destruct x as [n|t]; [|discriminate].
    apply (table_attr s (rev b) (rev a)).
    + rewrite <- (rev_involutive (st_attrs s)), E, rev_app_distr. cbn. now rewrite <- app_assoc.
    + intros m Hm. apply in_rev in Hm. specialize (Ha _ Hm); cbn in Ha; discriminate Ha.
  - apply table_ident. intros m Hm. apply in_rev in Hm. pose proof (find_none _ _ E _ Hm). discriminate.
Qed.
Lemma table_of_fun s a b : table_of s a -> table_of s b -> a = b.
Proof.
  intros Ha Hb.
  assert (Hu : forall l a1 b1 n1 a2 b2 n2, l = a1 ++ AttrTable n1 :: b1 -> l = a2 ++ AttrTable n2 :: b2 ->
             (forall m, ~ In (AttrTable m) b1) -> (forall m, ~ In (AttrTable m) b2) -> n1 = n2).
  { induction l as [|x l IH]; intros a1 b1 n1 a2 b2 n2 E1 E2 H1 H2.
    - destruct a1; discriminate.
    - destruct a1 as [|x1 a1], a2 as [|x2 a2]; cbn in *; inversion E1; inversion E2; subst.
      + congruence.
      + exfalso. apply (H1 n2). apply in_app_iff. right. now left.
      + exfalso. apply (H2 n1). apply in_app_iff. right. now left.
      + eapply IH; eauto. }
  destruct Ha as [a1 b1 n1 E1 H1|H1], Hb as [a2 b2 n2 E2 H2|H2]; auto.
  - eapply Hu; eauto.
  - exfalso. apply (H2 n1). rewrite E1. apply in_app_iff. right; now left.
  - exfalso. apply (H1 n2). rewrite E2. apply in_app_iff. right; now left.
Qed.

(** * Shape of the generated code *)

Lemma andm_ok a b r : andm a b = Ok r -> exists x, a = Ok x /\ (if x then b = Ok r else r = false).
Proof. unfold andm. intros H. inv_ok H. exists a0. split; auto. destruct a0; congruence. Qed.
Lemma notm_ok a r : notm a = Ok r -> exists x, a = Ok x /\ r = negb x.
Proof. unfold notm. intros H. apply omap_ok in H as (x & Hx & ->). eauto. Qed.

Definition plain_fields (s : sdef) : list sfield :=
  filter (fun f => negb (many_like resolve f) && negb (auto_like resolve f)) (st_fields s).

Lemma columns_all s cs : columns resolve s (fun _ => Ok true) = Ok cs ->
  cs = map column_of (row_fields resolve s).
Proof.
  unfold columns. intros H. inv_ok H. inversion H; subst. f_equal.
  apply (filterm_ok _ (fun f => negb (many_like resolve f))) in E; auto.
  intros x b _ Hb; cbn beta in *; apply andm_ok in Hb as (y & Hy & Hb). apply is_row_ok in Hy. subst y.
  destruct (negb (many_like resolve x)); [now inversion Hb|exact Hb].
Qed.
Lemma columns_plain s cs : columns resolve s (fun f => notm (is_auto resolve f)) = Ok cs ->
  cs = map column_of (plain_fields s).
Proof.
  unfold columns. intros H. inv_ok H. inversion H; subst. f_equal.
  apply (filterm_ok _ (fun f => negb (many_like resolve f) && negb (auto_like resolve f))) in E; auto.
  intros x b _ Hb; cbn beta in *; apply andm_ok in Hb as (y & Hy & Hb). apply is_row_ok in Hy. subst y.
  destruct (negb (many_like resolve x)); [|exact Hb].
  apply notm_ok in Hb as (y & Hy & ->). apply is_auto_ok in Hy. now subst.
Qed.
Lemma push_ok s p fs : push_values resolve s p = Ok fs ->
  fs = filter p (plain_fields s).
Proof.
  unfold push_values, plain_fields. intros H.
  apply (filterm_ok _ (fun f => negb (many_like resolve f) && negb (auto_like resolve f) && p f)) in H.
  - subst. generalize (st_fields s). induction l as [|x l IH]; [reflexivity|].
    cbn. destruct (negb (many_like resolve x) && negb (auto_like resolve x)); cbn.
    + destruct (p x); now rewrite IH.
    + apply IH.
  - intros x b _ Hb; cbn beta in *; apply andm_ok in Hb as (y & Hy & Hb). apply is_row_ok in Hy. subst y.
    destruct (negb (many_like resolve x)); [cbn|exact Hb].
    apply andm_ok in Hb as (y & Hy & Hb). apply notm_ok in Hy as (z & Hz & ->).
    apply is_auto_ok in Hz. subst z. destruct (negb (auto_like resolve x)); cbn; congruence.
Qed.
Lemma many_fields_ok s l : many_fields resolve s = Ok l ->
  l = map (fun f => (sf_ident f, many_table_lit s f)) (relation_fields resolve s).
Proof.
  unfold many_fields. intros H. inv_ok H. inversion H; subst. f_equal.
  apply (filterm_ok _ (many_like resolve)) in E; auto. intros x b _ Hb. now apply is_many_ok.
Qed.

(** The rows of a struct expression, numbered from [i]. *)
Fixpoint expected_rows (fs : list sfield) (i : nat) : list (string * rowexpr) :=
  match fs with
  | [] => []
  | f :: r => if many_like resolve f then (sf_ident f, NewMany) :: expected_rows r i
              else (sf_ident f, ReadColumn i (sf_ty f)) :: expected_rows r (S i)
  end.
Lemma rows_ok fs i rs : rows_for_from resolve fs i = Ok rs -> rs = expected_rows fs i.
Proof.
  revert i rs; induction fs as [|f fs IH]; cbn; intros i rs H; [congruence|].
  inv_ok H. apply is_row_ok in E. subst a.
  destruct (many_like resolve f); cbn in H; inv_ok H; inversion H; subst; f_equal; auto.
Qed.

Lemma dataresult_ok s d : impl_dataresult resolve s = Ok d ->
  dr_columns d = map column_of (row_fields resolve s)
  /\ dr_len d = length (row_fields resolve s)
  /\ dr_rows d = expected_rows (st_fields s) 0
  /\ dr_many d = map (fun f => (sf_ident f, many_table_lit s f)) (relation_fields resolve s).
Proof.
  unfold impl_dataresult. intros H. inv_ok H. inv_ok H. inv_ok H. inv_ok H. inversion H; subst; clear H.
  cbn. repeat split.
  - now apply columns_all.
  - apply (filterm_ok _ (fun f => negb (many_like resolve f))) in E; [now subst|].
    intros x b _ Hb. now apply is_row_ok.
  - now apply rows_ok.
  - now apply many_fields_ok.
Qed.

Lemma verify_auto_ok pk fs : verify_auto resolve pk fs = Ok tt ->
  forall f, In f fs -> auto_like resolve f = true ->
    same_field f pk = true /\
    exists a d, wraps "AutoPk" (sf_ty f) a /\ deferred_sql_type resolve a = Ok d
                /\ (d = KnownId (TyId TInt) \/ d = KnownId (TyId TBigInt)).
Proof.
  induction fs as [|g fs IH]; cbn; intros H f Hf Ha; [contradiction|].
  inv_ok H. pose proof (is_auto_ok _ _ E) as Eb.
  destruct a.
  - inv_ok H. assert (a = sf_ty g) as -> by (destruct (sf_ty g); cbn in E0; congruence).
    inv_ok H. inv_ok H. destruct a as [a|]; [|discriminate].
    apply type_argument_some in E1.
    assert (Hd : (a0 = KnownId (TyId TInt) \/ a0 = KnownId (TyId TBigInt)) /\ same_field g pk = true
                 /\ verify_auto resolve pk fs = Ok tt).
    { destruct a0 as [?|[[]|]|]; try discriminate; destruct (same_field g pk); try discriminate; auto. }
    destruct Hd as (Hd & Hs & Hr).
    destruct Hf as [<-|Hf]; [|now apply IH].
    split; [exact Hs|]. exists a, a0. auto.
  - destruct Hf as [<-|Hf]; [congruence|now apply IH].
Qed.

Definition expr_of (s : sdef) (f : sfield) (e : string * fieldexpr) : Prop :=
  fst e = sf_ident f /\
  match snd e with
  | ColumnExpr c t => many_like resolve f = false /\ (c, t) = column_of f
  | ManyExpr tb t => wraps "Many" (sf_ty f) t /\ tb = many_table_lit s f
  end.
Lemma field_expr_ok s f e : field_expr resolve s f = Ok e -> expr_of s f e.
Proof.
  unfold field_expr. intros H. inv_ok H. apply is_many_ok in E. subst a.
  destruct (many_like resolve f) eqn:Em.
  - inv_ok H. inv_ok H. inversion H; subst. destruct a as [a|]; [|discriminate].
    cbn in E0. inversion E0; subst. split; [reflexivity|]. split; [|reflexivity].
    now apply type_argument_some.
  - inversion H; subst. split; [reflexivity|]. split; auto.
Qed.

Record shape (s : sdef) (g : dbobject) : Prop := {
  sh_key : pk_field s = Some (do_pk g);
  sh_verify : verify_auto resolve (do_pk g) (st_fields s) = Ok tt;
  sh_auto : do_auto g = auto_like resolve (do_pk g);
  sh_table : do_table g = table_name s;
  sh_pkcol : do_pkcol g = strip_raw (sf_ident (do_pk g));
  sh_values : do_values g = plain_fields s;
  sh_values_no_pk : do_values_no_pk g = filter (fun f => negb (same_field f (do_pk g))) (plain_fields s);
  sh_insert : do_insert g = map column_of (plain_fields s);
  sh_save : do_save_many g = map (fun f => (sf_ident f, many_table_lit s f)) (relation_fields resolve s);
  sh_result : impl_dataresult resolve s = Ok (do_result g);
  sh_fields : Forall2 (expr_of s) (st_fields s) (do_fields g) }.
Lemma dbobject_ok s g : impl_dbobject resolve s = Ok g -> shape s g.
Proof.
  unfold impl_dbobject, verify_fields. intros H. inv_ok H.
  destruct (pk_field s) as [pk|] eqn:Ep; [|discriminate].
  inv_ok E. inversion E; subst a; clear E. destruct a0.
  do 7 inv_ok H. inversion H; subst; clear H. constructor; cbn; auto.
  - now apply is_auto_ok.
  - apply push_ok in E1. rewrite E1. generalize (plain_fields s). clear.
    induction l as [|x l IH]; cbn; congruence.
  - now apply push_ok.
  - now apply columns_plain.
  - now apply many_fields_ok.
  - apply omapm_ok in E6. clear - E6.
    induction E6; constructor; auto. now apply field_expr_ok.
Qed.

(** With a key that is not automatic no field is. *)
Lemma shape_row s g : shape s g -> do_auto g = false ->
  NoDup (map (fun f => strip_raw (sf_ident f)) (st_fields s)) ->
  plain_fields s = row_fields resolve s.
Proof.
  intros [] Ha Hn. unfold plain_fields, row_fields. apply filter_ext_in. intros f Hf.
  destruct (auto_like resolve f) eqn:Ef; [|now rewrite andb_true_r].
  destruct (verify_auto_ok _ _ sh_verify0 f Hf Ef) as [Hs _].
  unfold same_field in Hs. apply String.eqb_eq in Hs.
  assert (f = do_pk g).
  { apply (distinct_ident s); auto; [|congruence].
    now apply pk_field_spec in sh_key0 as []. }
  subst f. congruence.
Qed.
(** With an automatic key the plain fields are those other than the key. *)
Lemma shape_auto s g : shape s g -> do_auto g = true ->
  NoDup (map (fun f => strip_raw (sf_ident f)) (st_fields s)) ->
  forall f, In f (plain_fields s) <-> In f (row_fields resolve s) /\ f <> do_pk g.
Proof.
  intros [] Ha Hn f. unfold plain_fields, row_fields. rewrite !filter_In, andb_true_iff.
  split.
  - intros (Hf & Hm & Hau). repeat split; auto. intros ->. rewrite <- sh_auto0, Ha in Hau. discriminate.
  - intros ((Hf & Hm) & Hne). repeat split; auto.
    destruct (auto_like resolve f) eqn:Ef; [|reflexivity].
    destruct (verify_auto_ok _ _ sh_verify0 f Hf Ef) as [Hs _].
    unfold same_field in Hs. apply String.eqb_eq in Hs.
    exfalso. apply Hne. apply (distinct_ident s); auto; [|congruence].
    now apply pk_field_spec in sh_key0 as [].
Qed.

(** * Running it *)

Section Run.
Context {U M : Type}.
Variable sem : ty -> codec U.
Variable many_new : M.
Variable many_init : M -> string -> SqlVal -> SqlType -> M.
Notation field_sql := (@field_sql U M sem).
Notation non_auto_values := (@non_auto_values U M sem).
Notation from_row := (from_row sem many_new many_init).

Lemma field_sql_ok o f v : field_sql o f = Ok v <-> stores sem o f v.
Proof.
  unfold Codegen.field_sql, stores. split.
  - destruct (obj_get o (sf_ident f)) as [[u|m]|]; try discriminate. eauto.
  - intros (u & -> & H). exact H.
Qed.

Lemma forallb_filter_id {A} (p : A -> bool) l : forallb p l = true -> filter p l = l.
Proof.
  induction l as [|x l IH]; cbn; [reflexivity|]. intros H. apply andb_true_iff in H as [-> H].
  now rewrite IH.
Qed.
Lemma plain_no_pk s g : shape s g -> do_auto g = true ->
  NoDup (map (fun f => strip_raw (sf_ident f)) (st_fields s)) ->
  filter (fun f => negb (same_field f (do_pk g))) (plain_fields s) = plain_fields s.
Proof.
  intros Hs Ha Hn. apply forallb_filter_id. apply forallb_forall. intros f Hf.
  destruct (same_field f (do_pk g)) eqn:E; [|reflexivity].
  unfold same_field in E. apply String.eqb_eq in E. exfalso.
  pose proof (proj1 (shape_auto s g Hs Ha Hn f) Hf) as [Hr Hne]. apply Hne.
  apply (distinct_ident s); auto; [| |congruence].
  - unfold row_fields in Hr. now apply filter_In in Hr.
  - destruct Hs. now apply pk_field_spec in sh_key0 as [].
Qed.
Lemma values_eq s g o b : shape s g ->
  NoDup (map (fun f => strip_raw (sf_ident f)) (st_fields s)) ->
  b = true \/ do_auto g = true ->
  non_auto_values g o b = omapm (field_sql o) (plain_fields s).
Proof.
  intros Hs Hn Hb. unfold Codegen.non_auto_values.
  assert (Hl : (if b then do_values g else do_values_no_pk g) = plain_fields s).
  { destruct Hs. rewrite sh_values0, sh_values_no_pk0. destruct b; [reflexivity|].
    destruct Hb as [Hb|Hb]; [discriminate|]. apply plain_no_pk; auto. constructor; auto. }
  rewrite Hl. destruct Hs. rewrite sh_values0. now destruct (plain_fields s).
Qed.

(** Reading *)
Lemma obj_get_cons k v (o : object) n : obj_get ((k, v) :: o) n = if String.eqb k n then Some v else @obj_get U M o n.
Proof. unfold obj_get. cbn. destruct (String.eqb k n); reflexivity. Qed.

Definition read (row : brow) (i : nat) (f : sfield) (u : U) : Prop :=
  exists v, br_get row i (cd_type _ (sem (sf_ty f))) = Ok v /\ cd_from _ (sem (sf_ty f)) v = Ok u.

Lemma read_fields row fs i o :
  NoDup (map sf_ident fs) ->
  omapm (read_field sem many_new row) (expected_rows fs i) = Ok o ->
  map fst o = map sf_ident fs
  /\ (forall f, In f fs -> many_like resolve f = true -> obj_get o (sf_ident f) = Some (FM many_new))
  /\ (forall j f, nth_error (filter (fun f => negb (many_like resolve f)) fs) j = Some f ->
        exists u, read row (i + j) f u /\ obj_get o (sf_ident f) = Some (FV u)).
Proof.
  revert i o; induction fs as [|f fs IH]; intros i o Hn H.
  - cbn in H. inversion H. cbn. repeat split; try contradiction. intros [|j]; discriminate.
  - cbn in Hn. inversion Hn as [|? ? Hx Hn']; subst. cbn in H.
    assert (Hne : forall g, In g fs -> String.eqb (sf_ident f) (sf_ident g) = false).
    { intros g Hg. apply String.eqb_neq. intros E. apply Hx. rewrite E. now apply in_map. }
    destruct (many_like resolve f) eqn:Em; cbn in H.
    + inv_ok H. inversion H; subst; clear H. destruct (IH i a Hn' E) as (H1 & H2 & H3).
      cbn [map fst filter]. rewrite Em. cbn [negb]. rewrite H1. split; [reflexivity|]. split.
      * intros g [<-|Hg] Hm; rewrite obj_get_cons; [now rewrite String.eqb_refl|].
        rewrite Hne by auto. auto.
      * intros j g Hj. destruct (H3 j g Hj) as (u & Hu & Hg). exists u. split; [exact Hu|].
        rewrite obj_get_cons, Hne; auto. apply nth_error_In in Hj. now apply filter_In in Hj.
    + inv_ok H. inv_ok H. inversion H; subst; clear H.
      unfold read_field in E. cbn in E. inv_ok E. inv_ok E. inversion E; subst; clear E.
      destruct (IH (S i) a0 Hn' E0) as (H1 & H2 & H3).
      cbn [map fst filter]. rewrite Em. cbn [negb]. rewrite H1. split; [reflexivity|]. split.
      * intros g [<-|Hg] Hm; [congruence|]. rewrite obj_get_cons, Hne by auto. auto.
      * intros [|j] g Hj; cbn in Hj.
        -- inversion Hj; subst. exists a2. split; [|rewrite obj_get_cons, String.eqb_refl; reflexivity].
           rewrite Nat.add_0_r. exists a1. auto.
        -- destruct (H3 j g Hj) as (u & Hu & Hg). exists u.
           replace (i + S j) with (S i + j) by lia. split; [exact Hu|].
           rewrite obj_get_cons, Hne; auto. apply nth_error_In in Hj. now apply filter_In in Hj.
Qed.
(** Reading succeeds when every column does. *)
Lemma read_fields_total row fs i :
  (forall j f, nth_error (filter (fun f => negb (many_like resolve f)) fs) j = Some f -> exists u, read row (i + j) f u) ->
  exists o, omapm (read_field sem many_new row) (expected_rows fs i) = Ok o.
Proof.
  revert i; induction fs as [|f fs IH]; intros i H; [cbn; eauto|].
  cbn [filter] in H. cbn [expected_rows]. destruct (many_like resolve f) eqn:Em; cbn [negb] in H.
  - destruct (IH i) as (o & Ho); [auto|]. cbn [omapm]. rewrite Ho. eexists; reflexivity.
  - destruct (H 0 f eq_refl) as (u & v & Hv & Hu). rewrite Nat.add_0_r in Hv.
    cbn [omapm]. unfold read_field at 1. cbn [snd fst]. rewrite Hv. cbn [obind]. rewrite Hu. cbn [obind].
    destruct (IH (S i)) as (o & Ho); [|rewrite Ho; eexists; reflexivity].
    intros j g Hj. replace (S i + j) with (i + S j) by lia. auto.
Qed.

Lemma obj_get_set (o : object) n m v : obj_get (obj_set o n v) m =
  if String.eqb n m then (match @obj_get U M o n with Some _ => Some v | None => None end) else obj_get o m.
Proof.
  induction o as [|[k x] o IH]; cbn [obj_set].
  - now destruct (String.eqb n m).
  - rewrite obj_get_cons. destruct (String.eqb_spec k n) as [->|Hk].
    + rewrite !obj_get_cons. destruct (String.eqb n m); reflexivity.
    + rewrite !obj_get_cons, IH. destruct (String.eqb_spec n m) as [->|Hn].
      * destruct (String.eqb_spec k m); [contradiction|reflexivity].
      * reflexivity.
Qed.
Lemma obj_set_keys (o : object) n v : map fst (@obj_set U M o n v) = map fst o.
Proof. induction o as [|[k x] o IH]; cbn; [reflexivity|]. destruct (String.eqb k n); cbn; congruence. Qed.

Lemma init_manys_ok pk l o o' :
  NoDup (map fst l) -> ~ In (sf_ident pk) (map fst l) ->
  init_manys sem many_init pk o l = Ok o' ->
  map fst o' = map fst o
  /\ (forall n, ~ In n (map fst l) -> obj_get o' n = obj_get o n)
  /\ (forall n tb, In (n, tb) l -> exists m owner,
        obj_get o n = Some (FM m) /\ stores sem o pk owner
        /\ obj_get o' n = Some (FM (many_init m tb owner (cd_type _ (sem (sf_ty pk)))))).
Proof.
  revert o; induction l as [|[n tb] l IH]; intros o Hn Hp H; cbn in H.
  - inversion H; subst. repeat split; auto. intros ? ? [].
  - cbn in Hn, Hp. inversion Hn as [|? ? Hx Hn']; subst.
    inv_ok H. unfold init_many in E. cbn in E.
    destruct (obj_get o n) as [[u|m]|] eqn:Eg; try discriminate.
    inv_ok E. inversion E; subst; clear E. apply field_sql_ok in E0.
    destruct (IH _ Hn' (fun H => Hp (or_intror H)) H) as (H1 & H2 & H3).
    assert (Hpk : String.eqb n (sf_ident pk) = false) by (apply String.eqb_neq; intros ->; auto).
    split; [now rewrite H1, obj_set_keys|]. split.
    + intros k Hk. rewrite H2 by (cbn in Hk; tauto). rewrite obj_get_set.
      destruct (String.eqb_spec n k) as [->|]; [|reflexivity]. exfalso; apply Hk; now left.
    + intros k tb' [Hk|Hk].
      * inversion Hk; subst. exists m, a0. split; [exact Eg|]. split; [exact E0|].
        rewrite H2 by exact Hx. rewrite obj_get_set, String.eqb_refl, Eg. reflexivity.
      * destruct (H3 k tb' Hk) as (m' & ow & Hm & Ho & Hr). exists m', ow.
        assert (String.eqb n k = false).
        { apply String.eqb_neq. intros ->. apply Hx. now apply (in_map fst) in Hk. }
        rewrite obj_get_set, H0 in Hm. split; [exact Hm|]. split; [|exact Hr].
        destruct Ho as (u & Hu & Hc). rewrite obj_get_set, Hpk in Hu. exists u. auto.
Qed.
Lemma init_manys_total pk l o v :
  NoDup (map fst l) -> ~ In (sf_ident pk) (map fst l) -> stores sem o pk v ->
  (forall n, In n (map fst l) -> exists m, obj_get o n = Some (FM m)) ->
  exists o', init_manys sem many_init pk o l = Ok o'.
Proof.
  revert o; induction l as [|[n tb] l IH]; intros o Hn Hp Hs Hm; cbn; [eauto|].
  cbn in Hn, Hp. inversion Hn as [|? ? Hx Hn']; subst.
  destruct (Hm n (or_introl eq_refl)) as (m & Eg). unfold init_many. cbn. rewrite Eg.
  rewrite (proj2 (field_sql_ok o pk v) Hs). cbn.
  assert (Hpk : String.eqb n (sf_ident pk) = false) by (apply String.eqb_neq; intros ->; auto).
  apply IH; auto.
  - destruct Hs as (u & Hu & Hc). exists u. rewrite obj_get_set, Hpk. auto.
  - intros k Hk. destruct (Hm k (or_intror Hk)) as (m' & Em'). rewrite obj_get_set.
    destruct (String.eqb_spec n k) as [->|]; [contradiction|]. eauto.
Qed.

Lemma ident_nodup s : NoDup (map (fun f => strip_raw (sf_ident f)) (st_fields s)) -> NoDup (map sf_ident (st_fields s)).
Proof. intros H. rewrite <- map_map in H. now apply NoDup_map_inv in H. Qed.
Lemma nodup_filter_map {A B} (g : A -> B) p l : NoDup (map g l) -> NoDup (map g (filter p l)).
Proof.
  induction l as [|x l IH]; cbn; intros H; [constructor|]. inversion H as [|? ? Hx Hn]; subst.
  destruct (p x); cbn; auto. constructor; auto. intros Hin. apply Hx.
  apply in_map_iff in Hin as (y & E & Hy). apply filter_In in Hy as [Hy _]. rewrite <- E. now apply in_map.
Qed.
Lemma relation_idents s : map fst (map (fun f => (sf_ident f, many_table_lit s f)) (relation_fields resolve s))
  = map sf_ident (relation_fields resolve s).
Proof. now rewrite map_map. Qed.
Lemma pk_not_relation s pk : compiles resolve s -> key_field s pk ->
  ~ In (sf_ident pk) (map sf_ident (relation_fields resolve s)).
Proof.
  intros [Hn Hk] Hpk Hin. apply in_map_iff in Hin as (f & E & Hf).
  unfold relation_fields in Hf. apply filter_In in Hf as [Hf Hm].
  assert (f = pk). { apply (distinct_ident s); auto. destruct Hpk; auto. congruence. }
  subst f. rewrite (Hk _ Hpk) in Hm. discriminate.
Qed.

Lemma from_row_ok s d pk row o : compiles resolve s -> key_field s pk ->
  impl_dataresult resolve s = Ok d -> from_row d pk row = Ok o ->
  br_len row = length (row_fields resolve s)
  /\ map fst o = map sf_ident (st_fields s)
  /\ (forall j f, nth_error (row_fields resolve s) j = Some f ->
        exists u, read row j f u /\ obj_get o (sf_ident f) = Some (FV u))
  /\ (forall f, In f (relation_fields resolve s) -> exists owner,
        stores sem o pk owner
        /\ obj_get o (sf_ident f) =
             Some (FM (many_init many_new (many_table_lit s f) owner (cd_type _ (sem (sf_ty pk)))))).
Proof.
  intros Hc Hpk Hd H. apply dataresult_ok in Hd as (Hcols & Hlen & Hrows & Hmany).
  unfold Codegen.from_row in H. rewrite Hlen, Hrows, Hmany in H.
  destruct (Nat.eqb_spec (br_len row) (length (row_fields resolve s))) as [El|]; [|discriminate].
  inv_ok H. destruct Hc as [Hn Hk].
  destruct (read_fields _ _ _ _ (ident_nodup _ Hn) E) as (R1 & R2 & R3).
  pose proof (init_manys_ok pk _ _ _ ltac:(rewrite relation_idents; apply nodup_filter_map, ident_nodup, Hn)
    ltac:(rewrite relation_idents; apply pk_not_relation; [split|]; auto) H) as (I1 & I2 & I3).
  rewrite relation_idents in I2.
  split; [exact El|]. split; [congruence|]. split.
  - intros j f Hj. destruct (R3 j f Hj) as (u & Hu & Hg). exists u. split; [exact Hu|].
    rewrite I2; [exact Hg|]. intros Hin. apply in_map_iff in Hin as (f' & Ef & Hf').
    unfold relation_fields in Hf'. apply filter_In in Hf' as [Hf1 Hf2].
    apply nth_error_In in Hj. unfold row_fields in Hj. apply filter_In in Hj as [Hj1 Hj2].
    assert (f' = f) by (apply (distinct_ident s); auto; congruence). subst f'. rewrite Hf2 in Hj2. discriminate.
  - intros f Hf. destruct (I3 (sf_ident f) (many_table_lit s f)) as (m & ow & Hm & Ho & Hr).
    { apply (in_map (fun f => (sf_ident f, many_table_lit s f)) _ _ Hf). }
    unfold relation_fields in Hf. apply filter_In in Hf as [Hf1 Hf2].
    rewrite (R2 f Hf1 Hf2) in Hm. inversion Hm; subst.
    exists ow. split; [|exact Hr].
    destruct Ho as (u & Hu & Hcd). exists u. split; [|exact Hcd].
    rewrite I2; [exact Hu|]. apply pk_not_relation; [split|]; auto.
Qed.

Lemma from_row_total s d pk row v : compiles resolve s -> key_field s pk ->
  impl_dataresult resolve s = Ok d ->
  br_len row = length (row_fields resolve s) ->
  (forall j f, nth_error (row_fields resolve s) j = Some f -> exists u, read row j f u) ->
  (forall j u, nth_error (row_fields resolve s) j = Some pk -> read row j pk u ->
      cd_to _ (sem (sf_ty pk)) u = Ok v) ->
  exists o, from_row d pk row = Ok o.
Proof.
  intros Hc Hpk Hd El Hr Hp. apply dataresult_ok in Hd as (Hcols & Hlen & Hrows & Hmany).
  unfold Codegen.from_row. rewrite Hlen, Hrows, Hmany, El, Nat.eqb_refl. destruct Hc as [Hn Hk].
  destruct (read_fields_total row (st_fields s) 0 Hr) as (o & Ho). rewrite Ho. cbn [obind].
  destruct (read_fields _ _ _ _ (ident_nodup _ Hn) Ho) as (R1 & R2 & R3).
  assert (Hin : In pk (row_fields resolve s)).
  { unfold row_fields. apply filter_In. split; [now destruct Hpk|]. rewrite (Hk _ Hpk). reflexivity. }
  apply In_nth_error in Hin as (j & Hj). destruct (R3 j pk Hj) as (u & Hu & Hg).
  apply (init_manys_total pk _ _ v).
  - rewrite relation_idents; apply nodup_filter_map, ident_nodup, Hn.
  - rewrite relation_idents; apply pk_not_relation; [split|]; auto.
  - exists u. split; [exact Hg|]. eapply Hp; eauto.
  - intros n Hin. rewrite relation_idents in Hin. apply in_map_iff in Hin as (f & <- & Hf).
    unfold relation_fields in Hf. apply filter_In in Hf as [Hf1 Hf2]. eauto.
Qed.
End Run.

(** * The recorded tables *)

Lemma deferred_unfold lead quals name args (t := TPath lead quals name args) :
  deferred_sql_type resolve t =
  match primitive_sql_type t with
  | Some d => Ok d
  | None =>
      do o <- type_argument t "Option";
      match o with
      | Some t' => deferred_sql_type resolve t'
      | None =>
          do f <- foreign_sql_type resolve t "ForeignKey";
          match f with
          | Some d => Ok d
          | None =>
              do a <- type_argument t "AutoPk";
              match a with
              | Some t' => deferred_sql_type resolve t'
              | None => Ok (Deferred (CustomType (ty_text (strip_ty t))))
              end
          end
      end
  end.
Proof.
  subst t. unfold foreign_sql_type, Codegen.type_argument.
  cbn [deferred_sql_type]. destruct (primitive_sql_type (TPath lead quals name args)); [reflexivity|].
  destruct (resolve lead quals name) as [r|]; [|reflexivity].
  destruct args as [l|].
  2:{ destruct (String.eqb r "Option"), (String.eqb r "ForeignKey"), (String.eqb r "AutoPk"); reflexivity. }
  destruct (String.eqb_spec r "Option") as [->|H1].
  { cbn [String.eqb orb]. destruct l as [|[[]|] [|? ?]]; reflexivity. }
  destruct (String.eqb_spec r "AutoPk") as [->|H2].
  { cbn. destruct l as [|[[]|] [|? ?]]; reflexivity. }
  cbn [orb]. destruct (String.eqb_spec r "ForeignKey") as [->|H3].
  { cbn. destruct l as [|[[]|] [|? ?]]; reflexivity. }
  reflexivity.
Qed.

Lemma replace_fresh cols c : ~ In (c_name c) (map c_name cols) -> replace_col cols c = cols ++ [c].
Proof.
  induction cols as [|x cols IH]; cbn; intros H; [reflexivity|].
  destruct (String.eqb_spec (c_name x) (c_name c)) as [E|E]; [exfalso; auto|].
  rewrite IH; auto.
Qed.

Lemma field_column_ok f pk c : field_column resolve f pk = Ok c ->
  c_name c = strip_raw (sf_ident f) /\ deferred_sql_type resolve (sf_ty f) = Ok (c_type c).
Proof.
  unfold field_column. intros H. inv_ok H.
  assert (a = sf_ty f) as -> by (destruct (sf_ty f); cbn in E; congruence).
  do 5 inv_ok H. inversion H; subst. auto.
Qed.

Lemma atables_ok pk fs t many t' many' :
  atables_loop resolve pk fs t many = Ok (t', many') ->
  NoDup (map c_name (t_cols t) ++ map (fun f => strip_raw (sf_ident f)) fs) ->
  t_name t' = t_name t
  /\ (exists cs, t_cols t' = t_cols t ++ cs
        /\ Forall2 (fun f c => field_column resolve f pk = Ok c) (filter (fun f => negb (many_like resolve f)) fs) cs)
  /\ (exists ms, many' = many ++ ms
        /\ Forall2 (fun f m => many_table resolve (t_name t) f pk = Ok m) (filter (many_like resolve) fs) ms).
Proof.
  revert t many; induction fs as [|f fs IH]; intros t many H Hn.
  - cbn in H. inversion H; subst. repeat split.
    + exists []. rewrite app_nil_r. split; [reflexivity|constructor].
    + exists []. rewrite app_nil_r. split; [reflexivity|constructor].
  - cbn in H. inv_ok H. apply is_row_ok in E. subst a. cbn [filter].
    destruct (many_like resolve f) eqn:Em; cbn [negb] in *.
    + inv_ok H. destruct (IH _ _ H) as (H1 & H2 & (ms & -> & H3)).
      { cbn in Hn. now apply NoDup_remove_1 in Hn. }
      split; [exact H1|]. split; [exact H2|]. exists (a :: ms). rewrite <- app_assoc.
      split; [reflexivity|]. constructor; auto.
    + inv_ok H. pose proof (field_column_ok _ _ _ E) as [Ename _].
      cbn in Hn. destruct (IH _ _ H) as (H1 & (cs & H2 & H3) & H4).
      { cbn. rewrite replace_fresh.
        - rewrite map_app. cbn. rewrite <- app_assoc. cbn. now rewrite Ename.
        - rewrite Ename. intros Hin. apply NoDup_remove_2 in Hn. apply Hn. apply in_app_iff. now left. }
      split; [exact H1|]. split; [|exact H4].
      exists (a :: cs). split; [|constructor; auto]. rewrite H2. cbn.
      rewrite replace_fresh; [now rewrite <- app_assoc|].
      rewrite Ename. intros Hin. apply NoDup_remove_2 in Hn. apply Hn. apply in_app_iff. now left.
Qed.
Lemma create_ok s ts : create_atables resolve s = Ok ts ->
  NoDup (map (fun f => strip_raw (sf_ident f)) (st_fields s)) ->
  exists pk main ms, pk_field s = Some pk /\ ts = main :: ms
    /\ t_name main = table_name s
    /\ Forall2 (fun f c => field_column resolve f pk = Ok c) (row_fields resolve s) (t_cols main)
    /\ Forall2 (fun f m => many_table resolve (table_name s) f pk = Ok m) (relation_fields resolve s) ms.
Proof.
  unfold create_atables. intros H Hn. inv_ok H. inv_ok H. inversion H; subst; clear H.
  destruct (pk_field s) as [pk|] eqn:Ep; [|discriminate]. cbn in E. inversion E; subst.
  destruct a0 as [main ms]. apply atables_ok in E0; [|exact Hn].
  destruct E0 as (H1 & (cs & H2 & H3) & (ms' & H4 & H5)). cbn in *.
  exists a, main, ms. subst. repeat split; auto.
Qed.

(** * Recorded columns *)

Lemma foreign_key_ok t o : foreign_key_sql_type resolve t = Ok o ->
  (is_some o = true <-> exists a, refers resolve t a).
Proof.
  unfold foreign_key_sql_type. intros H. inv_ok H. destruct a as [inner|].
  - apply type_argument_some in E. apply foreign_ok in H as [H _]. rewrite H, wrapped_spec. split.
    + intros (a & Ha). exists a. right. eauto.
    + intros (a & [Ha|(t' & Ht & Ha)]).
      * pose proof (wraps_name _ _ _ _ _ E Ha) as X. discriminate.
      * rewrite (wraps_fun _ _ _ _ E Ht). eauto.
  - inv_ok H. assert (a = t) as -> by (destruct t; cbn in E0; congruence).
    apply foreign_ok in H as [H _]. rewrite H, wrapped_spec. split.
    + intros (a & Ha). exists a. now left.
    + intros (a & [Ha|(t' & Ht & Ha)]); [eauto|]. apply type_argument_some in Ht. congruence.
Qed.
Lemma get_default_ok f o : get_default f = Ok o -> default_of f o.
Proof.
  unfold get_default. destruct (find _ (sf_attrs f)) as [x|] eqn:E.
  - apply find_split in E as (a & b & E & Hx & Ha). destruct x as [| |[l|]|]; try discriminate.
    intros H. inv_ok H. inversion H; subst; clear H.
    apply (some_default f a b l a0); auto.
    + intros m Hm. specialize (Ha _ Hm); cbn in Ha; discriminate Ha.
    + destruct l as [s|s| | |z|r|b'| |]; cbn [sqlval_from_lit] in E0; try discriminate; try (inversion E0; reflexivity).
      destruct (Z.leb_spec (- 2 ^ 31) z) as [H1|]; [|discriminate E0].
      destruct (Z.ltb_spec z (2 ^ 31)) as [H2|]; [|discriminate E0].
      inversion E0. auto.
  - intros H; inversion H. apply no_default. intros l Hl. pose proof (find_none _ _ E _ Hl) as X; cbn in X; discriminate X.
Qed.
Lemma recorded_ok s pk f c : NoDup (map (fun f => strip_raw (sf_ident f)) (st_fields s)) ->
  In f (st_fields s) -> In pk (st_fields s) ->
  field_column resolve f pk = Ok c -> recorded resolve pk f c.
Proof.
  intros Hn Hf Hp H. unfold field_column in H. inv_ok H.
  assert (a = sf_ty f) as -> by (destruct (sf_ty f); cbn in E; congruence).
  do 5 inv_ok H. inversion H; subst; clear H. constructor; cbn.
  - reflexivity.
  - apply is_option_ok in E1. rewrite E1. apply wrapped_spec.
  - unfold same_field. rewrite String.eqb_eq. split; [|congruence].
    intros Ei. apply (distinct_ident s); auto. congruence.
  - apply is_auto_ok in E2. rewrite E2. apply wrapped_spec.
  - apply is_unique_spec.
  - now apply get_default_ok.
  - unfold is_foreign_key in E4. apply omap_ok in E4 as (o & Ho & ->).
    apply foreign_key_ok in Ho. destruct (is_some o).
    + split; [reflexivity|]. now apply Ho.
    + intros b Hb. assert (false = true) by (apply Ho; eauto). discriminate.
Qed.

(** * Recorded types *)

Lemma primitive_wrapper t w a : own_names resolve -> wraps w t a ->
  In w ["Option"; "AutoPk"; "ForeignKey"; "Many"] -> primitive_sql_type t = None.
Proof.
  intros Ho (l & q & n & -> & E & _) Hw. pose proof (Ho _ _ _ _ E Hw) as Hs.
  unfold primitive_sql_type. cbn [strip_ty]. rewrite Hs.
  cbn in Hw. destruct Hw as [<-|[<-|[<-|[<-|[]]]]]; cbn [String.eqb Ascii.eqb Bool.eqb];
    rewrite ?andb_false_r; reflexivity.
Qed.
Lemma deferred_wraps t w a : own_names resolve -> wraps w t a -> (w = "Option" \/ w = "AutoPk") ->
  deferred_sql_type resolve t = deferred_sql_type resolve a.
Proof.
  intros Ho Hw Hin.
  assert (Hp : primitive_sql_type t = None).
  { apply (primitive_wrapper t w a); auto. destruct Hin as [->| ->]; cbn; auto. }
  destruct Hw as (l & q & n & -> & E & (l' & q' & n' & g & ->)).
  rewrite deferred_unfold, Hp. unfold foreign_sql_type, Codegen.type_argument.
  rewrite E. destruct Hin as [->| ->]; reflexivity.
Qed.
Lemma spells_known t r : own_names resolve -> spells resolve t r ->
  deferred_sql_type resolve t = Ok (KnownId (TyId (rsqltype r))).
Proof.
  intros Ho H. induction H; try reflexivity;
    try (destruct lead; reflexivity).
  - rewrite deferred_unfold.
    assert (primitive_sql_type (TPath lead quals "NaiveDateTime" None) = some_known TTimestamp) as ->; [|reflexivity].
    unfold primitive_sql_type. cbn [strip_ty String.eqb]. cbn. rewrite !andb_false_r. reflexivity.
  - rewrite deferred_unfold.
    assert (primitive_sql_type (TPath lead quals "DateTime" (Some [GType (TPath lead' quals' "Utc" None)])) = some_known TTimestamp) as ->; [|reflexivity].
    unfold primitive_sql_type. cbn [strip_ty String.eqb]. cbn. rewrite !andb_false_r. reflexivity.
  - rewrite deferred_unfold.
    assert (primitive_sql_type (TPath lead quals "NaiveDate" None) = some_known TDate) as ->; [|reflexivity].
    unfold primitive_sql_type. cbn [strip_ty String.eqb]. cbn. rewrite !andb_false_r. reflexivity.
  - rewrite (deferred_wraps t "Option" a); auto.
  - rewrite (deferred_wraps t "AutoPk" a); auto.
Qed.
Lemma foreign_known t a : own_names resolve -> wraps "ForeignKey" t a ->
  deferred_sql_type resolve t = Ok (Deferred (PK (strip_raw (last_ident a)))).
Proof.
  intros Ho Hw. assert (Hp : primitive_sql_type t = None).
  { apply (primitive_wrapper t "ForeignKey" a); auto. cbn; auto. }
  destruct Hw as (l & q & n & -> & E & (l' & q' & n' & g & ->)).
  rewrite deferred_unfold, Hp. unfold foreign_sql_type, Codegen.type_argument.
  rewrite E. reflexivity.
Qed.
Lemma refers_known t a : own_names resolve -> refers resolve t a ->
  deferred_sql_type resolve t = Ok (Deferred (PK (strip_raw (last_ident a)))).
Proof.
  intros Ho [H|(t' & H & H')]; [now apply foreign_known|].
  rewrite (deferred_wraps t "Option" t'); auto. now apply foreign_known.
Qed.

(** * Many tables *)

Lemma many_table_ok main f pk m : many_table resolve main f pk = Ok m ->
  exists a pt, wraps "Many" (sf_ty f) a /\ deferred_sql_type resolve (sf_ty pk) = Ok pt /\
  m = {| t_name := (main ++ "_" ++ strip_raw (sf_ident f) ++ "_Many")%string;
         t_cols := [ {| c_name := "owner"; c_type := pt; c_nullable := false; c_pk := false; c_auto := false;
                        c_unique := false; c_default := None;
                        c_ref := Some (RefLiteral {| rl_table := main; rl_column := strip_raw (sf_ident pk) |}) |};
                     {| c_name := "has"; c_type := Deferred (PK (strip_raw (last_ident a))); c_nullable := false;
                        c_pk := false; c_auto := false; c_unique := false; c_default := None;
                        c_ref := Some (RefDeferred (Deferred (PK (strip_raw (last_ident a))))) |} ] |}.
Proof.
  unfold many_table. intros H. inv_ok H. inv_ok H. inv_ok H. inv_ok H. inversion H; subst; clear H.
  destruct a as [d|]; [|discriminate]. cbn in E0. inversion E0; subst; clear E0.
  apply many_type_ok in E as [_ E]. destruct (E _ eq_refl) as (a & Ha & ->).
  assert (a1 = sf_ty pk) as -> by (destruct (sf_ty pk); cbn in E1; congruence).
  exists a, a2. split; [exact Ha|]. split; [exact E2|]. reflexivity.
Qed.
End P.
