(** Saving, getting and deleting objects. *)
From Coq Require Import Permutation.
From Verif Require Import Base SqlVal Adb Backend Sql SqlStmt Query QuerySpec Stmt StmtSpec StmtSem UpsertProofs Conn ConnProofs
  Many ManyProofs Codegen CodegenSpec CodegenProofs Props_Models Obj ObjSpec.

Lemma longer (a b : string) : b <> ""%string -> (a ++ b)%string <> a.
Proof.
  intros N H. apply (f_equal String.length) in H. assert (L : forall a b, String.length (a ++ b) = String.length a + String.length b).
  { clear. induction a; intros b; cbn; [reflexivity|]. now rewrite IHa. }
  rewrite L in H. destruct b; [congruence|]. cbn in H. lia.
Qed.
Lemma field_app c (a b : row) : field c (a ++ b) = match field c a with Some v => Some v | None => field c b end.
Proof. induction a as [|[n x] a IH]; [reflexivity|]. cbn. now destruct (String.eqb n c). Qed.
Lemma combine_names (cols : list string) : forall vs : list SqlVal, length vs = length cols -> map fst (combine cols vs) = cols.
Proof. induction cols as [|c cols IH]; intros [|v vs] L; try discriminate; [reflexivity|]. cbn. f_equal. apply IH. cbn in L. lia. Qed.

Lemma f2_length {A B} (P : A -> B -> Prop) l l' : Forall2 P l l' -> length l = length l'.
Proof. induction 1; cbn; congruence. Qed.

Lemma app_length_s a : forall b, String.length (a ++ b) = String.length a + String.length b.
Proof. induction a; intros b; cbn; [reflexivity|]. now rewrite IHa. Qed.
Lemma app_cancel_r (c : string) : forall a b, (a ++ c)%string = (b ++ c)%string -> a = b.
Proof.
  induction a as [|x a IH]; intros [|y b] H; cbn in H; [reflexivity| | |].
  - exfalso. apply (f_equal String.length) in H. cbn in H. rewrite app_length_s in H. lia.
  - exfalso. apply (f_equal String.length) in H. cbn in H. rewrite app_length_s in H. lia.
  - inversion H. f_equal. now apply IH.
Qed.
Lemma app_cancel_l (c : string) a b : (c ++ a)%string = (c ++ b)%string -> a = b.
Proof. induction c as [|x c IH]; cbn; [auto|]. intros H. inversion H. auto. Qed.
Lemma relation_name_inj t f f' : relation_name t f = relation_name t f' -> strip_raw (sf_ident f) = strip_raw (sf_ident f').
Proof.
  unfold relation_name. intros H. apply app_cancel_l in H. change ("_" ++ ?x)%string with (String "_" x) in H.
  apply (app_cancel_l "_") in H. now apply app_cancel_r in H.
Qed.
Lemma without_perm E l l' r : Permutation l l' -> Permutation (without E l r) (without E l' r).
Proof.
  unfold without. induction 1 as [|x l l' _ IH|x y l|l l1 l2 _ IH1 _ IH2]; cbn [filter].
  - constructor.
  - destruct (negb _); auto using Permutation_cons.
  - destruct (negb (among E x r)), (negb (among E y r)); auto using perm_swap, Permutation_refl.
  - eapply Permutation_trans; eauto.
Qed.

Section Obj.
Context {U X : Type}.
Variable resolve : bool -> list string -> string -> option string.
Variable sem : ty -> codec U.
Variable valid : U -> bool.
Variable init : U -> SqlVal -> outcome unit * U.
Variable s : sdef.
Variable g : dbobject.
Variables (d : dialect) (kw : string -> bool) (b : backend) (E : engine).
Variable gen : db -> string -> list string -> row.
Variable K : SqlVal -> Prop.
Hypothesis Hc : compiles resolve s.
Hypothesis Hg : impl_dbobject resolve s = Ok g.
Hypothesis KW : quotes_enough kw d.
Hypothesis EO : engine_ok E.
Hypothesis NO : names_ok d b g.
Hypothesis EX : exact_on E K.
Hypothesis FR : fills_rest g gen.

Notation object := (@object U (many X)).
Notation cols := (map fst (dr_columns (do_result g))).
Notation icols := (map fst (do_insert g)).
Notation t := (do_table g).
Notation pk := (do_pkcol g).
Notation fname := (fun f : sfield => strip_raw (sf_ident f)).
Notation save_manys := (@save_manys U X sem g d kw b E gen).
Notation save_row := (@save_row U X sem valid init g d kw b E gen).
Notation save := (@save U X sem valid init g d kw b E gen).
Notation delete := (@delete U X sem g d kw b E gen).
Notation holds := (@holds_object U X resolve sem s).

(** * Names *)

Lemma cols_eq : cols = map fname (row_fields resolve s).
Proof. destruct (C31_columns _ _ _ Hc Hg) as (-> & _). now rewrite map_map. Qed.
Lemma icols_eq : icols = map fname (written_fields resolve s).
Proof. destruct (C31_columns _ _ _ Hc Hg) as (_ & -> & _). now rewrite map_map. Qed.
Lemma cols_nodup : NoDup cols.
Proof. rewrite cols_eq. unfold row_fields. apply nodup_filter_map. exact (proj1 Hc). Qed.
Lemma icols_nodup : NoDup icols.
Proof.
  rewrite icols_eq. unfold written_fields. apply nodup_filter_map. unfold row_fields. apply nodup_filter_map. exact (proj1 Hc).
Qed.
Lemma pk_row : In (do_pk g) (row_fields resolve s).
Proof.
  destruct (C31_key _ _ _ Hg) as (Hk & _). unfold row_fields. apply filter_In. split; [now destruct Hk|].
  now rewrite (proj2 Hc _ Hk).
Qed.
Lemma pkcol_eq : pk = fname (do_pk g).
Proof. now destruct (C31_key _ _ _ Hg) as (_ & -> & _). Qed.
Lemma pk_in : In pk cols.
Proof. rewrite cols_eq, pkcol_eq. apply (in_map fname). exact pk_row. Qed.
Lemma written_in f : In f (written_fields resolve s) <-> In f (row_fields resolve s) /\ (do_auto g = true -> f <> do_pk g).
Proof. now destruct (C31_columns _ _ _ Hc Hg) as (_ & _ & H). Qed.
Lemma icols_incl : incl icols cols.
Proof. rewrite icols_eq, cols_eq. intros c. rewrite !in_map_iff. intros (f & <- & Hf). exists f. split; [reflexivity|]. now apply written_in. Qed.
Lemma icols_cols : do_auto g = false -> icols = cols.
Proof.
  intros Ha. f_equal. destruct (C31_columns _ _ _ Hc Hg) as (H1 & H2 & _). rewrite H1, H2. f_equal.
  pose proof (dbobject_ok _ _ _ Hg) as Sh. rewrite written_plain. eapply shape_row; eauto. exact (proj1 Hc).
Qed.
Lemma row_inj f f' : In f (row_fields resolve s) -> In f' (row_fields resolve s) -> fname f = fname f' -> f = f'.
Proof.
  unfold row_fields. rewrite !filter_In. intros [H1 _] [H2 _] He. apply (distinct_ident s); auto. exact (proj1 Hc).
Qed.
Lemma pk_not_written : do_auto g = true -> ~ In pk icols.
Proof.
  intros Ha. rewrite icols_eq, in_map_iff. intros (f & He & Hf). apply written_in in Hf as [Hf Hn].
  apply (Hn Ha). apply row_inj; auto using pk_row. now rewrite He, pkcol_eq.
Qed.
Lemma all_cols f : In f (row_fields resolve s) -> f = do_pk g \/ In f (written_fields resolve s).
Proof.
  intros Hf. rewrite written_in. destruct (string_dec (fname f) (fname (do_pk g))) as [He|He].
  - left. apply row_inj; auto using pk_row.
  - right. split; [assumption|]. intros _ ->. congruence.
Qed.
Lemma icols_ok : Forall (fun c => identifier c = true) icols.
Proof. pose proof (nm_cols _ _ _ NO) as H. rewrite Forall_forall in *. intros c Hin. apply H. now apply icols_incl. Qed.
Lemma length_cols : length cols = length (dr_columns (do_result g)).
Proof. apply map_length. Qed.
Lemma icols_room : room b (S (length icols)).
Proof.
  pose proof (nm_room _ _ _ NO) as H. rewrite <- length_cols in H.
  assert (L : length icols <= length cols) by (apply NoDup_incl_length; [exact icols_nodup|exact icols_incl]).
  destruct b as [|[|]]; cbn in *; auto; lia.
Qed.
Lemma room_less n m : n <= m -> room b m -> room b n.
Proof. intros. destruct b as [|[|]]; cbn in *; auto; lia. Qed.
Lemma pk_ident : identifier pk = true.
Proof. exact (proj1 (nm_pk _ _ _ NO)). Qed.
Lemma relations_eq : do_save_many g = map (fun f => (sf_ident f, relation_name t f)) (relation_fields resolve s).
Proof.
  pose proof (dbobject_ok _ _ _ Hg) as []. rewrite sh_save. apply map_ext. intros f. unfold many_table_lit, relation_name.
  rewrite sh_table. reflexivity.
Qed.
Lemma relation_not_t f : relation_name t f <> t.
Proof. unfold relation_name. apply longer. discriminate. Qed.

(** * Values *)

Lemma stored_values (o : object) incl_pk vs : incl_pk = true \/ do_auto g = true -> non_auto_values sem g o incl_pk = Ok vs ->
  length vs = length icols
  /\ (forall f, In f (written_fields resolve s) -> exists v, stores sem o f v /\ field (fname f) (combine icols vs) = Some v).
Proof.
  intros Hb H. apply (C31_write _ _ _ _ _ _ _ _ _ Hc Hg Hb) in H. rewrite icols_eq. split.
  - rewrite map_length. symmetry. eapply f2_length; eauto.
  - intros f Hf. apply In_nth_error in Hf as (i & Hi). pose proof icols_nodup as ND. rewrite icols_eq in ND.
    assert (Hv : exists v, nth_error vs i = Some v /\ stores sem o f v).
    { clear - H Hi. revert i Hi. induction H as [|f' v fs vs H1 _ IH]; intros [|i] Hi; try discriminate; cbn in *.
      - inversion Hi; subst. eauto.
      - eauto. }
    destruct Hv as (v & Hv & Hs). exists v. split; [exact Hs|].
    apply (field_combine _ vs i); auto; [rewrite map_length; symmetry; eapply f2_length; eauto|]. exact (map_nth_error fname i _ Hi).
Qed.
Lemma stores_fun (o : object) f v v' : stores sem o f v -> stores sem o f v' -> v = v'.
Proof. intros (u & H1 & H2) (u' & H3 & H4). congruence. Qed.

(** * Keys *)

Lemma same_key x y : K x -> K y -> compare3 E CEq x y = Some true -> x = y.
Proof. intros Hx Hy. now apply EX. Qed.
Lemma key_refl x : K x -> compare3 E CEq x x = Some true.
Proof. intros Hx. now apply EX. Qed.
Lemma key_set x : K x -> x <> VNull.
Proof. intros Hx ->. apply key_refl in Hx. unfold compare3 in Hx. rewrite (null_l E EO) in Hx. discriminate. Qed.
Lemma has_key_eq kv (r : row) x : K kv -> field pk r = Some x -> K x -> has_key E pk kv r = true -> x = kv.
Proof.
  intros Hk Hf Hx H. unfold has_key in H. rewrite Hf in H. destruct (compare3 E CEq x kv) as [[|]|] eqn:Ec; try discriminate.
  now apply same_key.
Qed.
Lemma has_key_self kv (r : row) : K kv -> field pk r = Some kv -> has_key E pk kv r = true.
Proof. intros Hk Hf. unfold has_key. now rewrite Hf, key_refl. Qed.
Lemma has_key_fields kv (r r' : row) : field pk r = field pk r' -> has_key E pk kv r = has_key E pk kv r'.
Proof. intros H. unfold has_key. now rewrite H. Qed.

(** The rows not of this key stay, and those of this key hold the object. *)
Definition others (kv : SqlVal) (l : list row) : list row := filter (fun r => negb (has_key E pk kv r)) l.
Lemma others_app kv l l' : others kv (l ++ l') = others kv l ++ others kv l'.
Proof. apply filter_app. Qed.
Lemma others_rewrite kv f l : (forall r, In r l -> has_key E pk kv r = true -> has_key E pk kv (f r) = true) ->
  others kv (rewrite_rows (has_key E pk kv) f l) = others kv l.
Proof.
  unfold others, rewrite_rows. induction l as [|r l IH]; intros H; [reflexivity|]. cbn [map filter].
  destruct (has_key E pk kv r) eqn:Eh.
  - rewrite H by (auto; now left). cbn [negb]. apply IH. intros; apply H; auto; now right.
  - rewrite Eh. cbn [negb]. f_equal. apply IH. intros; apply H; auto; now right.
Qed.
Lemma rewrite_in kv f l r : In r (rewrite_rows (has_key E pk kv) f l) -> has_key E pk kv r = true ->
  exists r0, In r0 l /\ has_key E pk kv r0 = true /\ r = f r0.
Proof.
  unfold rewrite_rows. rewrite in_map_iff. intros (r0 & Hr & Hin) Hk. destruct (has_key E pk kv r0) eqn:E0; [eauto|]. congruence.
Qed.

Definition row_ok (r : row) : Prop := row_has cols r /\ exists x, field pk r = Some x /\ K x.
Lemma table_rows D : model_table E K g D <-> Forall row_ok (D t).
Proof. reflexivity. Qed.
Lemma table_incl D : model_table E K g D -> Forall (row_has cols) (D t).
Proof. apply Forall_impl. now intros r []. Qed.

(** * The object's own row *)

(** What is true after its own row was saved; [u] is the key before. *)
Definition row_saved (o o1 : object) (u : U) (kv : SqlVal) (D D1 : db) : Prop :=
  stores sem o1 (do_pk g) kv /\ K kv
  /\ (forall i, i <> sf_ident (do_pk g) -> obj_get o1 i = obj_get o i)
  /\ (forall n, n <> t -> D1 n = D n)
  /\ model_table E K g D1
  /\ others kv (D1 t) = others kv (D t)
  /\ (forall r, In r (D1 t) -> has_key E pk kv r = true -> holds o1 r)
  /\ (if do_auto g && negb (valid u) then
        others kv (D t) = D t /\ (exists r, D1 t = D t ++ [r] /\ has_key E pk kv r = true)
        /\ exists u1, obj_get o1 (sf_ident (do_pk g)) = Some (FV u1) /\ valid u1 = true
      else
        o1 = o /\ stores sem o (do_pk g) kv
        /\ length (D1 t) = length (D t) + (if do_auto g || existsb (has_key E pk kv) (D t) then 0 else 1)
        /\ (do_auto g = false \/ existsb (has_key E pk kv) (D t) = true -> existsb (has_key E pk kv) (D1 t) = true)).

Lemma assigned_row cs vs r : NoDup cs -> length vs = length cs -> incl cs cols -> row_ok r ->
  (In pk cs -> exists kv, field pk (combine cs vs) = Some kv /\ K kv) -> row_ok (assign (combine cs vs) r).
Proof.
  intros ND L I [[N1 N2] (x & Hx & Kx)] Hp. split.
  - split; rewrite assign_names; assumption.
  - rewrite field_assign; auto; [|intros c Hcc; apply N2, I, Hcc].
    destruct (field pk (combine cs vs)) as [v|] eqn:Ef; [|eauto].
    destruct (in_dec string_dec pk cs) as [Hin|Hin].
    + destruct (Hp Hin) as (kv & H1 & H2). exists v. split; [reflexivity|]. congruence.
    + rewrite field_combine_none in Ef by assumption. discriminate.
Qed.
Lemma rewritten_table f l kv : Forall row_ok l -> (forall r, In r l -> row_ok r -> row_ok (f r)) ->
  Forall row_ok (rewrite_rows (has_key E pk kv) f l).
Proof.
  rewrite !Forall_forall. intros H Hf r Hr. unfold rewrite_rows in Hr. apply in_map_iff in Hr as (r0 & <- & Hin).
  destruct (has_key E pk kv r0); auto.
Qed.
Lemma rewrite_length f l kv : length (rewrite_rows (has_key E pk kv) f l) = length l.
Proof. apply map_length. Qed.
Lemma rewrite_exists f l kv : (forall r, In r l -> has_key E pk kv r = true -> has_key E pk kv (f r) = true) ->
  existsb (has_key E pk kv) l = true -> existsb (has_key E pk kv) (rewrite_rows (has_key E pk kv) f l) = true.
Proof.
  intros H He. apply existsb_exists in He as (r & Hr & Hk). apply existsb_exists. exists (f r). split; [|now apply H].
  unfold rewrite_rows. apply in_map_iff. exists r. rewrite Hk. auto.
Qed.

(** The automatic key with other fields, already set: an update. *)
Lemma update_saved (o : object) u kv vs w : do_auto g = true -> valid u = true -> obj_get o (sf_ident (do_pk g)) = Some (FV u) ->
  model_table E K g (w_db w) -> stores sem o (do_pk g) kv -> K kv -> length vs = length icols ->
  (forall f, In f (written_fields resolve s) -> exists v, stores sem o f v /\ field (fname f) (combine icols vs) = Some v) ->
  row_saved o o u kv (w_db w)
    (with_table (w_db w) t (rewrite_rows (has_key E pk kv) (assign (combine icols vs)) (w_db w t))).
Proof.
  intros Ha Hv Hu HM Hs HK L Hvs.
  assert (Hsame : forall r, In r (w_db w t) -> field pk (assign (combine icols vs) r) = field pk r).
  { intros r Hr. rewrite table_rows, Forall_forall in HM. destruct (HM r Hr) as [[N1 N2] _].
    rewrite field_assign; auto using icols_nodup; [|intros c Hcc; apply N2, icols_incl, Hcc].
    now rewrite field_combine_none by now apply pk_not_written. }
  assert (Hk : forall r, In r (w_db w t) -> has_key E pk kv r = true -> has_key E pk kv (assign (combine icols vs) r) = true).
  { intros r Hr Hk. rewrite <- Hk. apply has_key_fields. auto. }
  split; [exact Hs|]. split; [exact HK|]. split; [reflexivity|]. split; [intros n N; now rewrite with_table_other|].
  rewrite table_rows, with_table_same. split; [|split; [|split]].
  - apply rewritten_table; [exact HM|]. intros r Hr Hok. apply assigned_row; auto using icols_nodup, icols_incl.
    intros Hin. now apply pk_not_written in Hin.
  - now apply others_rewrite.
  - intros r Hr Hkr. destruct (rewrite_in _ _ _ _ Hr Hkr) as (r0 & Hin & Hk0 & ->). intros f Hf.
    rewrite table_rows, Forall_forall in HM. destruct (HM r0 Hin) as [[N1 N2] (x & Hx & Kx)].
    destruct (all_cols f Hf) as [->|Hw].
    + exists kv. split; [exact Hs|]. cbn beta. rewrite <- pkcol_eq, Hsame by assumption. rewrite Hx. f_equal. eapply has_key_eq; eauto.
    + destruct (Hvs f Hw) as (v & Hst & Hfd). exists v. split; [exact Hst|]. cbn beta in *.
      rewrite field_assign; auto using icols_nodup; [now rewrite Hfd|intros c Hcc; apply N2, icols_incl, Hcc].
  - rewrite Ha, Hv. cbn [andb negb orb]. split; [reflexivity|]. split; [exact Hs|]. rewrite rewrite_length. split; [lia|].
    intros [H|H]; [discriminate|]. now apply rewrite_exists.
Qed.

(** The automatic key alone, already set: nothing is done. *)
Lemma kept_saved (o : object) u kv w : do_auto g = true -> valid u = true -> icols = [] ->
  model_table E K g (w_db w) -> stores sem o (do_pk g) kv -> K kv -> row_saved o o u kv (w_db w) (w_db w).
Proof.
  intros Ha Hv Hi HM Hs HK. split; [exact Hs|]. split; [exact HK|]. split; [reflexivity|]. split; [reflexivity|].
  split; [exact HM|]. split; [reflexivity|]. split.
  - intros r Hr Hkr f Hf. destruct (all_cols f Hf) as [->|Hw].
    + rewrite table_rows, Forall_forall in HM. destruct (HM r Hr) as [_ (x & Hx & Kx)].
      exists kv. split; [exact Hs|]. cbn beta. rewrite <- pkcol_eq, Hx. f_equal. eapply has_key_eq; eauto.
    + exfalso. assert (Hin : In (fname f) icols) by (rewrite icols_eq; apply (in_map fname); exact Hw). rewrite Hi in Hin. exact Hin.
  - rewrite Ha, Hv. cbn [andb negb orb]. split; [reflexivity|]. split; [exact Hs|]. split; [lia|]. intros [H|H]; [discriminate|exact H].
Qed.

Lemma existsb_false_others kv l : existsb (has_key E pk kv) l = false -> others kv l = l.
Proof.
  unfold others. induction l as [|r l IH]; [reflexivity|]. cbn [existsb filter]. intros H. apply orb_false_iff in H as [-> H].
  cbn [negb]. f_equal. auto.
Qed.

(** A key that is not automatic: an upsert. *)
Lemma upsert_saved (o : object) u kv vs w : do_auto g = false -> obj_get o (sf_ident (do_pk g)) = Some (FV u) ->
  model_table E K g (w_db w) -> stores sem o (do_pk g) kv -> K kv -> length vs = length cols ->
  (forall f, In f (row_fields resolve s) -> exists v, stores sem o f v /\ field (fname f) (combine cols vs) = Some v) ->
  row_saved o o u kv (w_db w)
    (if existsb (has_key E pk kv) (w_db w t)
     then (if Nat.ltb 1 (length cols)
           then with_table (w_db w) t (rewrite_rows (has_key E pk kv) (assign (combine cols vs)) (w_db w t)) else w_db w)
     else inserted gen (w_db w) t cols vs).
Proof.
  intros Ha Hu HM Hs HK L Hvs.
  assert (Hkf : field pk (combine cols vs) = Some kv).
  { destruct (Hvs _ pk_row) as (v & Hst & Hfd). cbn beta in Hfd. rewrite <- pkcol_eq in Hfd. rewrite Hfd. f_equal. eapply stores_fun; eauto. }
  destruct (existsb (has_key E pk kv) (w_db w t)) eqn:Ee; [destruct (Nat.ltb_spec 1 (length cols)) as [Hl|Hl]|].
  - assert (Has : forall r, In r (w_db w t) -> forall c, field c (assign (combine cols vs) r)
                    = match field c (combine cols vs) with Some v => Some v | None => field c r end).
    { intros r Hr c. rewrite table_rows, Forall_forall in HM. destruct (HM r Hr) as [[N1 N2] _].
      apply field_assign; auto using cols_nodup. }
    assert (Hk : forall r, In r (w_db w t) -> has_key E pk kv r = true -> has_key E pk kv (assign (combine cols vs) r) = true).
    { intros r Hr _. apply has_key_self; [exact HK|]. now rewrite Has, Hkf. }
    split; [exact Hs|]. split; [exact HK|]. split; [reflexivity|]. split; [intros n N; now rewrite with_table_other|].
    rewrite table_rows, with_table_same. split; [|split; [|split]].
    + apply rewritten_table; [exact HM|]. intros r Hr Hok. apply assigned_row; auto using cols_nodup, incl_refl. intros _. eauto.
    + now apply others_rewrite.
    + intros r Hr Hkr. destruct (rewrite_in _ _ _ _ Hr Hkr) as (r0 & Hin & Hk0 & ->). intros f Hf.
      destruct (Hvs f Hf) as (v & Hst & Hfd). exists v. split; [exact Hst|]. rewrite Has by assumption. cbn beta in Hfd. now rewrite Hfd.
    + rewrite Ha, Ee. cbn [andb orb]. split; [reflexivity|]. split; [exact Hs|]. rewrite rewrite_length. split; [lia|].
      intros _. now apply rewrite_exists.
  - split; [exact Hs|]. split; [exact HK|]. split; [reflexivity|]. split; [reflexivity|]. split; [exact HM|]. split; [reflexivity|]. split.
    + intros r Hr Hkr f Hf. assert (f = do_pk g) as ->.
      { apply row_inj; auto using pk_row. clear - Hf Hl Hc Hg. rewrite cols_eq in Hl. rewrite map_length in Hl.
        pose proof pk_row as Hp. destruct (row_fields resolve s) as [|a [|a' l]]; [contradiction| |cbn in Hl; lia].
        destruct Hf as [<-|[]], Hp as [<-|[]]. reflexivity. }
      rewrite table_rows, Forall_forall in HM. destruct (HM r Hr) as [_ (x & Hx & Kx)].
      exists kv. split; [exact Hs|]. rewrite <- pkcol_eq, Hx. f_equal. eapply has_key_eq; eauto.
    + rewrite Ha, Ee. cbn [andb orb]. split; [reflexivity|]. split; [exact Hs|]. split; [lia|]. intros _. reflexivity.
  - assert (Hnew : forall c v, field c (combine cols vs) = Some v -> field c (combine cols vs ++ gen (w_db w) t cols) = Some v)
      by (intros c v H; now rewrite field_app, H).
    split; [exact Hs|]. split; [exact HK|]. split; [reflexivity|]. split; [intros n N; unfold inserted; now rewrite with_table_other|].
    unfold inserted. rewrite table_rows, with_table_same. split; [|split; [|split]].
    + apply Forall_app. split; [exact HM|]. constructor; [|constructor]. split.
      * split; rewrite map_app, combine_names by assumption; [apply FR; exact cols_nodup|apply incl_appl, incl_refl].
      * exists kv. split; [now apply Hnew|exact HK].
    + rewrite others_app. unfold others at 2. cbn [filter]. rewrite has_key_self; auto. cbn [negb]. apply app_nil_r.
    + intros r Hr Hkr. apply in_app_iff in Hr as [Hr|[<-|[]]].
      * exfalso. assert (existsb (has_key E pk kv) (w_db w t) = true) by (apply existsb_exists; eauto). congruence.
      * intros f Hf. destruct (Hvs f Hf) as (v & Hst & Hfd). exists v. split; [exact Hst|]. now apply Hnew.
    + rewrite Ha, Ee. cbn [andb orb]. split; [reflexivity|]. split; [exact Hs|]. rewrite app_length. split; [cbn; lia|].
      intros _. rewrite existsb_app. cbn [existsb]. rewrite has_key_self by auto. now rewrite orb_true_r.
Qed.

(** A new automatic key: an insert. *)
Lemma insert_saved (o : object) u vs w r o1 w1 : ObjSpec.makes_key E K sem valid init g gen (w_db w) u -> do_auto g = true -> valid u = false ->
  obj_get o (sf_ident (do_pk g)) = Some (FV u) -> model_table E K g (w_db w) -> length vs = length icols ->
  (forall f, In f (written_fields resolve s) -> exists v, stores sem o f v /\ field (fname f) (combine icols vs) = Some v) ->
  insert_and_init init g d kw b E gen icols (Ok vs) o u w = (Ok r, o1, w1) ->
  exists kv, row_saved o o1 u kv (w_db w) (w_db w1).
Proof.
  intros MK Ha Hv Hu HM L Hvs H. unfold insert_and_init in H.
  destruct (conn_insert_returning_pk d kw b E gen t icols pk vs w) as [[kv|e|] w2] eqn:Ei; try discriminate.
  apply (insert_returning_ok d kw b E gen KW) in Ei;
    [|exact (nm_table _ _ _ NO)|exact icols_ok|exact (nm_pk _ _ _ NO)|eapply room_less; [|exact icols_room]; lia|exact L].
  destruct Ei as [HD Hf]. destruct MK as (kv' & Hkv & HK & Hfresh & Hinit).
  assert (kv' = kv) as ->.
  { rewrite field_app, (field_combine_none icols vs pk) in Hf by now apply pk_not_written. congruence. }
  destruct Hinit as (u1 & Hi & Hv1 & Hto). rewrite Hi in H. inversion H; subst o1 w1. clear H.
  assert (Hgp : obj_get (obj_set o (sf_ident (do_pk g)) (FV u1)) (sf_ident (do_pk g)) = Some (FV u1)).
  { rewrite obj_get_set, String.eqb_refl, Hu. reflexivity. }
  assert (Hgo : forall i, i <> sf_ident (do_pk g) -> obj_get (obj_set o (sf_ident (do_pk g)) (FV u1)) i = obj_get o i).
  { intros i Hi'. rewrite obj_get_set. destruct (String.eqb_spec (sf_ident (do_pk g)) i); [congruence|reflexivity]. }
  exists kv. rewrite HD. split; [exists u1; auto|]. split; [exact HK|]. split; [exact Hgo|].
  split; [intros n N; unfold inserted; now rewrite with_table_other|].
  assert (Hne : existsb (has_key E pk kv) (w_db w t) = false).
  { apply Bool.not_true_iff_false. intros He. apply existsb_exists in He as (x & Hx & Hk). rewrite Forall_forall in Hfresh.
    rewrite (Hfresh x Hx) in Hk. discriminate. }
  unfold inserted. rewrite table_rows, with_table_same. split; [|split; [|split]].
  - apply Forall_app. split; [exact HM|]. constructor; [|constructor]. split.
    + split; rewrite map_app, combine_names by assumption; [apply FR; exact icols_nodup|].
      rewrite cols_eq. intros c Hcc. apply in_map_iff in Hcc as (f & <- & Hf0). apply in_app_iff. destruct (all_cols f Hf0) as [->|Hw].
      * right. rewrite <- pkcol_eq. clear - Hkv. induction (gen (w_db w) t icols) as [|[n x] l IH]; [discriminate|].
        cbn in *. destruct (String.eqb_spec n pk); auto.
      * left. rewrite icols_eq. apply (in_map fname). exact Hw.
    + exists kv. auto.
  - rewrite others_app. unfold others at 2. cbn [filter]. rewrite has_key_self; auto. cbn [negb]. apply app_nil_r.
  - intros x Hr Hkr. apply in_app_iff in Hr as [Hr|[<-|[]]].
    + rewrite Forall_forall in Hfresh. rewrite (Hfresh x Hr) in Hkr. discriminate.
    + intros f Hf0. destruct (all_cols f Hf0) as [->|Hw].
      * exists kv. split; [exists u1; auto|]. rewrite <- pkcol_eq. exact Hf.
      * destruct (Hvs f Hw) as (v & (uf & Hst & Hto') & Hfd). exists v. cbn beta in Hfd. split; [|now rewrite field_app, Hfd].
        exists uf. split; [|exact Hto']. rewrite Hgo; [exact Hst|]. intros He. apply written_in in Hw as [_ Hw]. apply (Hw Ha).
        apply row_inj; auto using pk_row. now rewrite He.
  - rewrite Ha, Hv. cbn [andb negb]. split; [now apply existsb_false_others|]. split; [|eauto].
    eexists. split; [reflexivity|]. now apply has_key_self.
Qed.

Lemma single : do_auto g = true -> length (dr_columns (do_result g)) = 1 -> icols = [].
Proof.
  intros Ha H1. rewrite <- length_cols, cols_eq, map_length in H1. rewrite icols_eq.
  destruct (written_fields resolve s) as [|f l] eqn:Ew; [reflexivity|].
  assert (Hf : In f (written_fields resolve s)) by (rewrite Ew; now left). apply written_in in Hf as [Hf Hn].
  pose proof pk_row as Hp. destruct (row_fields resolve s) as [|a [|a' l']]; try discriminate.
  destruct Hf as [<-|[]], Hp as [Hp|[]]. exfalso. apply (Hn Ha). auto.
Qed.
Lemma not_single : do_auto g = true -> length (dr_columns (do_result g)) <> 1 -> icols <> [].
Proof.
  intros Ha H1 Hi. apply H1. rewrite <- length_cols, cols_eq, map_length. rewrite icols_eq in Hi.
  assert (Hw : written_fields resolve s = []) by (destruct (written_fields resolve s); [reflexivity|discriminate]).
  assert (Hall : forall f, In f (row_fields resolve s) -> f = do_pk g).
  { intros f Hf. destruct (all_cols f Hf) as [?|Hin]; [assumption|]. rewrite Hw in Hin. contradiction. }
  pose proof pk_row as Hp. pose proof cols_nodup as ND. rewrite cols_eq in ND. clear - Hall Hp ND.
  destruct (row_fields resolve s) as [|a [|a' l]]; [contradiction|reflexivity|].
  exfalso. inversion ND as [|? ? N _]; subst. apply N. left. now rewrite (Hall a), (Hall a') by (cbn; auto).
Qed.
Lemma not_auto_values (o : object) vs : do_auto g = false -> non_auto_values sem g o true = Ok vs ->
  length vs = length cols
  /\ (forall f, In f (row_fields resolve s) -> exists v, stores sem o f v /\ field (fname f) (combine cols vs) = Some v).
Proof.
  intros Ha H. destruct (stored_values o true vs (or_introl eq_refl) H) as [L Hv]. rewrite icols_cols in L, Hv by assumption.
  split; [exact L|]. intros f Hf. apply Hv. apply written_in. split; [exact Hf|congruence].
Qed.

Notation key_kind := (@key_kind U X K sem valid g).
Notation makes_key := (makes_key E K sem valid init g gen).

Lemma save_row_ok (o o1 : object) w w1 r : model_table E K g (w_db w) -> key_kind o ->
  (forall u, obj_get o (sf_ident (do_pk g)) = Some (FV u) -> do_auto g = true -> valid u = false -> makes_key (w_db w) u) -> save_row o w = (Ok r, o1, w1) ->
  (exists u, obj_get o (sf_ident (do_pk g)) = Some (FV u) /\ exists kv, row_saved o o1 u kv (w_db w) (w_db w1))
  \/ (exists u, obj_get o (sf_ident (do_pk g)) = Some (FV u) /\ do_auto g = true /\ valid u = true
        /\ (forall kv, ~ stores sem o (do_pk g) kv) /\ o1 = o /\ w1 = w).
Proof.
  intros HM HKK MK H. unfold Obj.save_row, obj_key in H.
  destruct (obj_get o (sf_ident (do_pk g))) as [[u|m]|] eqn:Eu; try discriminate.
  assert (Hau : do_auto g = true \/ do_auto g = false) by (destruct (do_auto g); auto).
  destruct Hau as [Ha|Ha]; rewrite Ha in H; cbn [andb] in H.
  - destruct (Nat.eqb_spec (length (dr_columns (do_result g))) 1) as [H1|H1].
    + destruct (valid u) eqn:Hv.
      * inversion H; subst. destruct (cd_to _ (sem (sf_ty (do_pk g))) u) as [kv|e|] eqn:Et.
        -- left. exists u. split; [reflexivity|]. exists kv. apply kept_saved; auto using single; [exists u; auto|].
           apply (HKK u kv); auto.
        -- right. exists u. repeat split; auto. intros kv (u' & Hu' & Ht). congruence.
        -- right. exists u. repeat split; auto. intros kv (u' & Hu' & Ht). congruence.
      * left. exists u. split; [reflexivity|]. 
        assert (H' : insert_and_init init g d kw b E gen icols (Ok []) o u w = (Ok r, o1, w1)) by (rewrite (single Ha H1); exact H).
        apply (insert_saved o u [] w r o1 w1); auto; [rewrite (single Ha H1); reflexivity|].
        intros f Hf. exfalso. assert (Hin : In (fname f) icols) by (rewrite icols_eq; apply (in_map fname); exact Hf).
        rewrite (single Ha H1) in Hin. exact Hin.
    + left. exists u. split; [reflexivity|]. destruct (valid u) eqn:Hv.
      * destruct (field_sql sem o (do_pk g)) as [kv|e|] eqn:Ek; try discriminate.
        destruct (non_auto_values sem g o false) as [vs|e|] eqn:En; try discriminate.
        destruct (stored_values o false vs (or_intror Ha) En) as [L Hvs].
        apply field_sql_ok in Ek. assert (HK : K kv) by (destruct Ek as (u' & Hu' & Ht); apply (HKK u' kv); auto; right; congruence).
        rewrite (update_effect d kw b E gen KW EO) in H;
          [|exact (nm_table _ _ _ NO)|exact pk_ident|now apply not_single|exact icols_ok|exact icols_room|exact L|].
        -- exists kv. unfold by_fate in H. destruct (next_fate w); inversion H; subst. cbn [w_db after]. now apply update_saved.
        -- eapply Forall_impl; [|exact HM]. cbn beta. intros x [[N1 N2] _]. split; [exact N1|].
           intros c [<-|Hin]; [apply N2, pk_in|apply N2, icols_incl, Hin].
      * destruct (non_auto_values sem g o true) as [vs|e|] eqn:En; try discriminate.
        destruct (stored_values o true vs (or_introl eq_refl) En) as [L Hvs]. eapply insert_saved; eauto.
  - left. exists u. split; [reflexivity|]. destruct (non_auto_values sem g o true) as [vs|e|] eqn:En; try discriminate.
    destruct (not_auto_values o vs Ha En) as [L Hvs]. destruct (Hvs _ pk_row) as (kv & Hst & Hfd). cbn beta in Hfd. rewrite <- pkcol_eq in Hfd.
    assert (HK : K kv) by (destruct Hst as (u' & Hu' & Ht); apply (HKK u' kv); auto).
    destruct (nm_not_excluded _ _ _ NO) as [X1 X2].
    rewrite (upsert_effect d kw b E gen KW t pk cols vs kv w) in H;
      [|exact X2|exact X1|exact (nm_table _ _ _ NO)|exact pk_ident|exact (nm_cols _ _ _ NO)|exact L|exact cols_nodup|exact pk_in|exact Hfd
       |now apply table_incl].
    exists kv. unfold by_fate in H. destruct (next_fate w); inversion H; subst. cbn [w_db after]. now apply upsert_saved.
Qed.

(** * The relations *)

(** What became of the relation [f] between the object [o] in [D] and [o'] in [D']. *)
Definition relation_saved (kv : SqlVal) (o o' : object) (D D' : db) (f : sfield) : Prop :=
  forall m, obj_get o (sf_ident f) = Some (FM m) -> exists m', obj_get o' (sf_ident f) = Some (FM m')
    /\ m_owner m' = Some kv /\ m_table m' = relation_name t f /\ m_new m' = [] /\ m_removed m' = []
    /\ relation_table D' (relation_name t f)
    /\ Permutation (partners E D' (relation_name t f) kv)
                   (without E (partners E D (relation_name t f) kv ++ m_new m) (m_removed m)).

Lemma relation_inj f f' : In f (relation_fields resolve s) -> In f' (relation_fields resolve s) -> fname f = fname f' -> f = f'.
Proof.
  unfold relation_fields. rewrite !filter_In. intros [H1 _] [H2 _] He. apply (distinct_ident s); auto. exact (proj1 Hc).
Qed.
Lemma save_manys_ok kv : K kv -> forall fs (o : object) w r o' w',
  incl fs (relation_fields resolve s) -> NoDup (map fname fs) -> stores sem o (do_pk g) kv ->
  Forall (fun f => identifier (relation_name t f) = true) fs ->
  (forall f, In f fs -> exists m, obj_get o (sf_ident f) = Some (FM m)
     /\ (m_owner m = None \/ m_owner m = Some kv /\ m_table m = relation_name t f)
     /\ room b (length (flat_map bound (m_removed m))) /\ relation_table (w_db w) (relation_name t f)) ->
  save_manys (map (fun f => (sf_ident f, relation_name t f)) fs) o w = (Ok r, o', w') ->
  (forall i, ~ In i (map sf_ident fs) -> obj_get o' i = obj_get o i)
  /\ (forall n, ~ In n (map (relation_name t) fs) -> w_db w' n = w_db w n)
  /\ (forall f, In f fs -> relation_saved kv o o' (w_db w) (w_db w') f).
Proof.
  intros HK. induction fs as [|f fs IH]; intros o w r o' w' Hin ND Hst Hid Hown H.
  - cbn in H. inversion H; subst. repeat split; auto. intros f [].
  - cbn [map Obj.save_manys] in H. destruct (Hown f (or_introl eq_refl)) as (m & Hm & Hmo & Hroom & Hrt). rewrite Hm in H.
    assert (Efs : field_sql sem o (do_pk g) = Ok kv) by now apply field_sql_ok. rewrite Efs in H.
    set (m1 := ensure_init m (relation_name t f) kv (cd_type _ (sem (sf_ty (do_pk g))))) in *.
    assert (Hm1 : m_owner m1 = Some kv /\ m_table m1 = relation_name t f /\ m_new m1 = m_new m /\ m_removed m1 = m_removed m).
    { unfold m1, ensure_init. destruct Hmo as [Hmo|[Hmo Ht]]; rewrite Hmo; cbn; auto. }
    destruct Hm1 as (M1 & M2 & M3 & M4).
    inversion Hid as [|? ? Hid1 Hid2]; subst. inversion ND as [|? ? ND1 ND2]; subst.
    pose proof (save_spec d kw b E gen KW EO m1 w kv M1) as HS. rewrite M2, M4 in HS. specialize (HS Hid1 Hrt Hroom).
    destruct (many_save d kw b E gen m1 w) as [[[u|e|] m2] w2]; try discriminate. destruct HS as [Hm2 HD2].
    assert (Hne : forall f', In f' fs -> sf_ident f' <> sf_ident f /\ relation_name t f' <> relation_name t f).
    { intros f' Hf'. assert (fname f' <> fname f) by (intros He; apply ND1; rewrite <- He; apply (in_map fname); exact Hf').
      split; [congruence|]. intros He. apply relation_name_inj in He. contradiction. }
    assert (Hpk : sf_ident f <> sf_ident (do_pk g)).
    { intros He. destruct (C31_key _ _ _ Hg) as (Hk & _). apply (pk_not_relation resolve s _ Hc Hk). rewrite <- He.
      apply in_map. apply Hin. now left. }
    assert (HDo : forall n, n <> relation_name t f -> w_db w2 n = w_db w n).
    { intros n N. rewrite HD2, deleted_other, add_links_other; auto. }
    assert (Hgo : forall i, i <> sf_ident f -> obj_get (obj_set o (sf_ident f) (FM m2)) i = obj_get o i).
    { intros i Hi. rewrite obj_get_set. destruct (String.eqb_spec (sf_ident f) i); [congruence|reflexivity]. }
    destruct (IH (obj_set o (sf_ident f) (FM m2)) w2 r o' w') as (I1 & I2 & I3); auto.
    + intros x Hx. apply Hin. now right.
    + destruct Hst as (uu & Hu1 & Hu2). exists uu. rewrite Hgo by congruence. auto.
    + intros f' Hf'. destruct (Hne f' Hf') as [N1 N2]. destruct (Hown f' (or_intror Hf')) as (m' & A1 & A2 & A3 & A4).
      exists m'. rewrite Hgo by assumption. repeat split; auto. unfold relation_table in *. now rewrite HDo.
    + assert (Hself : ~ In (sf_ident f) (map sf_ident fs)).
      { intros Hx. apply in_map_iff in Hx as (f' & He & Hf'). destruct (Hne f' Hf'). congruence. }
      assert (Hselfn : ~ In (relation_name t f) (map (relation_name t) fs)).
      { intros Hx. apply in_map_iff in Hx as (f' & He & Hf'). destruct (Hne f' Hf'). congruence. }
      split; [|split].
      * intros i Hi. rewrite I1 by (intros Hx; apply Hi; now right). apply Hgo. intros ->. apply Hi. now left.
      * intros n Hn. rewrite I2 by (intros Hx; apply Hn; now right). apply HDo. intros ->. apply Hn. now left.
      * intros f' [<-|Hf'].
        -- intros m' Hm'. rewrite Hm in Hm'. inversion Hm'; subst m'. exists m2. rewrite I1 by assumption.
           rewrite obj_get_set, String.eqb_refl, Hm. split; [reflexivity|]. rewrite Hm2. cbn [m_owner m_table m_new m_removed set_pending].
           split; [exact M1|]. split; [exact M2|]. split; [reflexivity|]. split; [reflexivity|].
           unfold relation_table. rewrite (I2 _ Hselfn).
           assert (Hpp : forall v, partners E (w_db w') (relation_name t f) v = partners E (w_db w2) (relation_name t f) v)
             by (intros v; unfold partners; now rewrite (I2 _ Hselfn)).
           rewrite Hpp, HD2, partners_deleted, partners_add.
           assert (Hsame : same E kv kv = true) by (unfold same; now rewrite key_refl).
           rewrite Hsame, M3. split.
           ++ apply relation_deleted. now apply relation_add.
           ++ apply without_perm. apply Permutation_app_head. apply Permutation_sym, Permutation_rev.
        -- intros m' Hm'. destruct (Hne f' Hf') as [N1 N2]. destruct (I3 f' Hf' m') as (m3 & J1 & J2 & J3 & J4 & J5 & J6 & J7).
           { now rewrite Hgo. }
           exists m3. repeat split; auto.
           assert (Hpp : partners E (w_db w2) (relation_name t f') kv = partners E (w_db w) (relation_name t f') kv)
             by (unfold partners; now rewrite HDo). now rewrite <- Hpp.
Qed.

(** * Saving *)

Definition is_relation (n : string) : Prop := exists f, In f (relation_fields resolve s) /\ n = relation_name t f.

(** What is true of a successful save of [o] in [D], which left [o'] and [D']. *)
Definition saved_as (o o' : object) (u : U) (kv : SqlVal) (D D' : db) : Prop :=
  stores sem o' (do_pk g) kv /\ K kv
  /\ (forall f, In f (row_fields resolve s) -> f <> do_pk g -> obj_get o' (sf_ident f) = obj_get o (sf_ident f))
  /\ (forall n, n <> t -> ~ is_relation n -> D' n = D n)
  /\ model_table E K g D'
  /\ others kv (D' t) = others kv (D t)
  /\ (forall r, In r (D' t) -> has_key E pk kv r = true -> holds o' r)
  /\ (forall f, In f (relation_fields resolve s) -> relation_saved kv o o' D D' f)
  /\ (if do_auto g && negb (valid u) then
        others kv (D t) = D t /\ (exists r, D' t = D t ++ [r] /\ has_key E pk kv r = true)
        /\ exists u1, obj_get o' (sf_ident (do_pk g)) = Some (FV u1) /\ valid u1 = true
      else
        obj_get o' (sf_ident (do_pk g)) = Some (FV u)
        /\ length (D' t) = length (D t) + (if do_auto g || existsb (has_key E pk kv) (D t) then 0 else 1)
        /\ (do_auto g = false \/ existsb (has_key E pk kv) (D t) = true -> existsb (has_key E pk kv) (D' t) = true)).

Lemma row_relation f f' : In f (row_fields resolve s) -> In f' (relation_fields resolve s) -> sf_ident f <> sf_ident f'.
Proof.
  unfold row_fields, relation_fields. rewrite !filter_In. intros [H1 H2] [H3 H4] He.
  assert (f = f') by (apply (distinct_ident s); auto; [exact (proj1 Hc)|congruence]). subst. rewrite H4 in H2. discriminate.
Qed.
Lemma relations_named : Forall (fun f => identifier (relation_name t f) = true) (relation_fields resolve s).
Proof.
  pose proof (nm_many _ _ _ NO) as H. rewrite relations_eq in H. rewrite Forall_forall in *. intros f Hf.
  apply (H (sf_ident f, relation_name t f)). apply in_map_iff. eauto.
Qed.
Lemma relations_nodup : NoDup (map fname (relation_fields resolve s)).
Proof. unfold relation_fields. apply nodup_filter_map. exact (proj1 Hc). Qed.

Lemma save_ok (o o' : object) w w' r kv : model_table E K g (w_db w) -> key_kind o ->
  (forall u, obj_get o (sf_ident (do_pk g)) = Some (FV u) -> do_auto g = true -> valid u = false -> makes_key (w_db w) u) ->
  save o w = (Ok r, o', w') -> stores sem o' (do_pk g) kv -> own_relations resolve b s t (w_db w) o kv ->
  exists u, obj_get o (sf_ident (do_pk g)) = Some (FV u) /\ saved_as o o' u kv (w_db w) (w_db w').
Proof.
  intros HM HKK MK H Hst Hown. unfold Obj.save in H.
  destruct (save_row o w) as [[[x|e|] o1] w1] eqn:Er; try discriminate.
  rewrite relations_eq in H.
  assert (Hpki : forall fs o w r o' w', incl fs (relation_fields resolve s) ->
            save_manys (map (fun f => (sf_ident f, relation_name t f)) fs) o w = (Ok r, o', w') ->
            obj_get o' (sf_ident (do_pk g)) = obj_get o (sf_ident (do_pk g))).
  { clear - Hc Hg. induction fs as [|f fs IH]; intros o w r o' w' Hin H; [cbn in H; now inversion H|].
    cbn [map Obj.save_manys] in H. destruct (obj_get o (sf_ident f)) as [[|m]|]; try discriminate.
    destruct (field_sql sem o (do_pk g)); try discriminate. destruct (many_save _ _ _ _ _ _ _) as [[[|e|] m'] w2]; try discriminate.
    apply IH in H; [|intros z Hz; apply Hin; now right]. rewrite H, obj_get_set.
    destruct (String.eqb_spec (sf_ident f) (sf_ident (do_pk g))) as [He|]; [|reflexivity].
    exfalso. destruct (C31_key _ _ _ Hg) as (Hk & _). apply (pk_not_relation resolve s _ Hc Hk). rewrite <- He. apply in_map. apply Hin. now left. }
  pose proof (Hpki _ _ _ _ _ _ (incl_refl _) H) as Hpk'.
  apply save_row_ok in Er; auto. destruct Er as [(u & Hu & kv1 & RS)|(u & Hu & _ & _ & Hno & -> & ->)].
  - exists u. split; [exact Hu|]. destruct RS as (R1 & R2 & R3 & R4 & R5 & R6 & R7 & R8).
    assert (kv1 = kv) as ->. { destruct R1 as (a & A1 & A2), Hst as (a' & A3 & A4). rewrite Hpk' in A3. congruence. }
    assert (Hrel1 : forall f, In f (relation_fields resolve s) -> obj_get o1 (sf_ident f) = obj_get o (sf_ident f)).
    { intros f Hf. apply R3. intros He. now apply (row_relation (do_pk g) f pk_row Hf). }
    assert (HDr : forall f, w_db w1 (relation_name t f) = w_db w (relation_name t f)) by (intros f; apply R4, relation_not_t).
    destruct (save_manys_ok kv R2 (relation_fields resolve s) o1 w1 r o' w') as (S1 & S2 & S3); auto using incl_refl, relations_nodup, relations_named.
    { intros f Hf. destruct (Hown f Hf) as (m & M1 & M2 & M3 & M4). exists m. rewrite Hrel1 by assumption. repeat split; auto.
      unfold relation_table. now rewrite HDr. }
    assert (Hnr : forall f, In f (row_fields resolve s) -> ~ In (sf_ident f) (map sf_ident (relation_fields resolve s))).
    { intros f Hf Hin. apply in_map_iff in Hin as (f' & He & Hf'). exact (row_relation f f' Hf Hf' (eq_sym He)). }
    assert (HDt : w_db w' t = w_db w1 t).
    { apply S2. intros Hin. apply in_map_iff in Hin as (f' & He & _). exact (relation_not_t f' He). }
    assert (Hsts : forall f v, In f (row_fields resolve s) -> stores sem o1 f v -> stores sem o' f v).
    { intros f v Hf (a & A1 & A2). exists a. rewrite S1 by auto. auto. }
    split; [exact Hst|]. split; [exact R2|]. split; [|split; [|split; [|split; [|split; [|split]]]]].
    + intros f Hf Hne. rewrite S1 by auto. apply R3. intros He. apply Hne. apply row_inj; auto using pk_row. now rewrite He.
    + intros n Hn Hr. rewrite S2; [now apply R4|]. intros Hin. apply in_map_iff in Hin as (f' & He & Hf'). apply Hr. exists f'. auto.
    + rewrite table_rows, HDt. exact R5.
    + now rewrite HDt.
    + rewrite HDt. intros x0 Hx Hk f Hf. destruct (R7 x0 Hx Hk f Hf) as (v & V1 & V2). exists v. auto.
    + intros f Hf m Hm. destruct (S3 f Hf m) as (m' & M1 & M2 & M3 & M4 & M5 & M6 & M7); [now rewrite Hrel1|].
      exists m'. repeat split; auto. assert (Hpp : partners E (w_db w1) (relation_name t f) kv = partners E (w_db w) (relation_name t f) kv)
        by (unfold partners; now rewrite HDr). now rewrite <- Hpp.
    + rewrite HDt. destruct (do_auto g && negb (valid u)).
      * destruct R8 as (E1 & E2 & u1 & E3 & E4). repeat split; auto. exists u1. now rewrite Hpk'.
      * destruct R8 as (-> & _ & E2 & E3). repeat split; auto. now rewrite Hpk'.
  - exfalso. apply (Hno kv). destruct Hst as (a & A1 & A2). exists a. now rewrite <- Hpk'.
Qed.

(** * Getting *)

Lemma get_query_ok id w : K id -> model_table E K g (w_db w) ->
  let x := set_limit 1 (set_filter (BEq pk (EVal id)) (q_new t)) in
  forall r w', query_answers d kw b E cols x w r w' <->
   w' = after w (w_db w) /\
   match next_fate w with
   | Works => (exists out, r = Ok out /\ returns E (w_db w) x (Some 1%Z) cols out)
              \/ (r = Err (DbError 1) /\ forall out, ~ returns E (w_db w) x (Some 1%Z) cols out)
   | _ => r = Err (DbError 0)
   end.
Proof.
  intros HK HM x r w'. apply (query_effect d kw b E KW EO cols x w r w').
  - split; [exact (nm_table _ _ _ NO)|]. split; [intros Hn; pose proof pk_in as Hp; rewrite Hn in Hp; contradiction|].
    split; [exact (nm_cols _ _ _ NO)|]. split; [constructor|]. split; [exact I|]. split; [|exact I]. exact (nm_pk _ _ _ NO).
  - eapply room_less; [|exact (nm_room _ _ _ NO)]. cbn [query_values q_filter x set_limit set_filter bound_values].
    assert (length (bound_values (BEq pk (EVal id))) <= 1) by (destruct id; cbn; lia).
    cbn in *. destruct (dr_columns (do_result g)); cbn in *; lia.
  - exact (nm_reads _ _ _ NO).
  - cbn. lia.
  - exact I.
  - apply eq_ok. eapply Forall_impl; [|exact HM]. cbn beta. intros y [[_ N2] _]. apply N2, pk_in.
  - destruct b; [|exact I]. intros Hx. discriminate.
Qed.
Lemma get_returns id D out : K id -> model_table E K g D ->
  returns E D (set_limit 1 (set_filter (BEq pk (EVal id)) (q_new t))) (Some 1%Z) cols out <->
  (filter (has_key E pk id) (D t) = [] /\ out = [])
  \/ exists r vs, In r (D t) /\ has_key E pk id r = true /\ columns_of cols r = Some vs /\ out = [vs].
Proof.
  intros HK HM. unfold returns. cbn [q_table q_filter q_sort q_offset set_limit set_filter q_new drop take].
  assert (Hf : filter (row_matches E D t (Some (BEq pk (EVal id)))) (D t) = filter (has_key E pk id) (D t)).
  { apply filter_ext. intros r. apply eq_matches. now apply key_set. }
  rewrite Hf. change (Z.to_nat 1) with 1. split.
  - intros (sorted & HP & _ & Ho). destruct sorted as [|r l].
    + left. split; [|cbn in Ho; congruence]. now apply Permutation_sym, Permutation_nil in HP.
    + right. assert (Hin : In r (filter (has_key E pk id) (D t))) by (eapply Permutation_in; [apply Permutation_sym; exact HP|now left]).
      apply filter_In in Hin as [Hin Hk]. cbn [firstn map all_some] in Ho. destruct (columns_of cols r) as [vs|] eqn:Ec; [|discriminate].
      cbn in Ho. exists r, vs. inversion Ho. auto.
  - intros [[He ->]|(r & vs & Hin & Hk & Hcs & ->)].
    + exists []. rewrite He. repeat split; constructor.
    + assert (Hin' : In r (filter (has_key E pk id) (D t))) by now apply filter_In.
      apply in_split in Hin' as (l1 & l2 & Hs). exists (r :: l1 ++ l2). rewrite Hs.
      split; [apply Permutation_sym, Permutation_middle|]. split.
      * assert (Hl : forall l x, Forall (row_le E [] x) l) by (clear; induction l; intros x; constructor; auto; exact I).
        generalize (r :: l1 ++ l2). clear - Hl. induction l; constructor; auto.
      * cbn [firstn map all_some]. rewrite Hcs. reflexivity.
Qed.
Lemma get_iff id w r w' : K id -> model_table E K g (w_db w) ->
  (get_answers sem g d kw b E id w r w' <->
   w' = after w (w_db w) /\
   match next_fate w with
   | Works => (filter (has_key E pk id) (w_db w t) = [] /\ r = Err NoSuchObject)
              \/ exists x vs, In x (w_db w t) /\ has_key E pk id x = true /\ columns_of cols x = Some vs
                             /\ r = object_of_row (X := X) sem g vs
   | _ => r = Err (DbError 0)
   end).
Proof.
  intros HK HM. unfold get_answers, try_get_answers, objects_answer. split.
  - intros (x & (l & (q & Hq & ->) & ->) & ->). apply get_query_ok in Hq; auto. destruct Hq as [-> Hq]. split; [reflexivity|].
    destruct (next_fate w); [|subst; reflexivity..].
    destruct Hq as [(out & -> & Hr)|[-> Hno]].
    + apply get_returns in Hr; auto. destruct Hr as [[He ->]|(x & vs & Hin & Hk & Hcs & ->)].
      * left. auto.
      * right. exists x, vs. repeat split; auto. cbn [obind omapm]. destruct (object_of_row sem g vs); reflexivity.
    + exfalso. destruct (filter (has_key E pk id) (w_db w t)) as [|x l] eqn:Ef.
      * apply (Hno []). apply get_returns; auto.
      * assert (Hin : In x (filter (has_key E pk id) (w_db w t))) by (rewrite Ef; now left). apply filter_In in Hin as [Hin Hk].
        pose proof HM as HM'. rewrite table_rows, Forall_forall in HM'. destruct (HM' x Hin) as [[_ N2] _].
        destruct (columns_of_some cols x N2) as (vs & Hvs). apply (Hno [vs]). apply get_returns; auto. right. exists x, vs. auto.
  - intros [-> Hq].
    assert (Hg' : forall q, (match next_fate w with
               | Works => (exists out, q = Ok out /\ returns E (w_db w) (set_limit 1 (set_filter (BEq pk (EVal id)) (q_new t))) (Some 1%Z) cols out)
                   \/ (q = Err (DbError 1) /\ forall out, ~ returns E (w_db w) (set_limit 1 (set_filter (BEq pk (EVal id)) (q_new t))) (Some 1%Z) cols out)
               | _ => q = Err (DbError 0) end) ->
              query_answers d kw b E cols (set_limit 1 (set_filter (BEq pk (EVal id)) (q_new t))) w q (after w (w_db w))).
    { intros q Hq'. apply get_query_ok; auto. }
    destruct (next_fate w).
    + destruct Hq as [[He ->]|(x & vs & Hin & Hk & Hcs & ->)].
      * eexists. split; [eexists; split; [exists (Ok []); split; [|reflexivity]|reflexivity]|reflexivity].
        apply Hg'. left. exists []. split; [reflexivity|]. apply get_returns; auto.
      * eexists. split; [eexists; split; [exists (Ok [vs]); split; [|reflexivity]|reflexivity]|].
        -- apply Hg'. left. exists [vs]. split; [reflexivity|]. apply get_returns; auto. right. exists x, vs. auto.
        -- cbn [obind omapm]. destruct (object_of_row sem g vs); reflexivity.
    + subst. eexists. split; [eexists; split; [exists (Err (DbError 0)); split; [|reflexivity]|reflexivity]|reflexivity]. now apply Hg'.
    + subst. eexists. split; [eexists; split; [exists (Err (DbError 0)); split; [|reflexivity]|reflexivity]|reflexivity]. now apply Hg'.
Qed.

(** A row that holds an object is read back as an equal one. *)
Lemma read_back (o : object) (r : row) vs kv : stores sem o (do_pk g) kv -> fields_survive resolve sem s o -> holds o r ->
  (forall f, In f (relation_fields resolve s) -> exists m, obj_get o (sf_ident f) = Some (FM m)
      /\ m_owner m = Some kv /\ m_table m = relation_name t f) ->
  columns_of cols r = Some vs -> exists o', object_of_row sem g vs = Ok o' /\ equal_objects resolve s o o'.
Proof.
  intros Hst Hsv Hh Hrel Hcs. unfold columns_of in Hcs. rewrite cols_eq, map_map in Hcs. apply all_some_forall2 in Hcs.
  destruct (C31_round_trip resolve U (many X) sem many_new ensure_init s g o {| br_len := length vs; br_get := row_of vs |} Hc Hg) as (o' & Ho & H1 & H2).
  - intros f u v Hf Hu Hv. exact (proj2 (Hsv f u Hf Hu v Hv)).
  - cbn. symmetry. eapply f2_length; eauto.
  - intros j f Hj. pose proof (nth_error_In _ _ Hj) as Hf. destruct (Hh f Hf) as (v & Hs & Hfd). exists v. split; [exact Hs|].
    assert (Hn : nth_error vs j = Some v).
    { clear - Hcs Hj Hfd. revert j Hj. induction Hcs as [|f' y fs vs Hy _ IH]; intros [|j] Hj; try discriminate; cbn in *.
      - inversion Hj; subst. congruence.
      - auto. }
    cbn. unfold row_of, row_get. rewrite Hn. destruct Hs as (u & Hu & Hto). now rewrite (proj1 (Hsv f u Hf Hu v Hto)).
  - exists o'. split; [exact Ho|]. split; [intros f Hf; symmetry; auto|]. intros f Hf. destruct (Hrel f Hf) as (m & M1 & M2 & M3).
    destruct (H2 f Hf) as (ow & Hst' & Hg'). exists m. eexists. split; [exact M1|]. split; [exact Hg'|]. cbn.
    rewrite (stores_fun _ _ _ _ Hst Hst') in M2. rewrite M2, M3. auto.
Qed.

(** Rows of other keys. *)
Lemma other_rows kv id D D' : K kv -> K id -> id <> kv -> model_table E K g D -> model_table E K g D' ->
  others kv (D' t) = others kv (D t) ->
  forall x, In x (D' t) /\ has_key E pk id x = true <-> In x (D t) /\ has_key E pk id x = true.
Proof.
  intros Hkv Hid Hne HM HM' Ho.
  assert (Hx : forall D0, model_table E K g D0 -> forall x, In x (D0 t) /\ has_key E pk id x = true <->
            In x (others kv (D0 t)) /\ has_key E pk id x = true).
  { intros D0 HM0 x. unfold others. rewrite filter_In. split; [|tauto]. intros [Hin Hk]. split; [split; [exact Hin|]|exact Hk].
    rewrite table_rows, Forall_forall in HM0. destruct (HM0 x Hin) as [_ (y & Hy & HKy)].
    destruct (has_key E pk kv x) eqn:E2; [|reflexivity]. exfalso. apply Hne.
    rewrite <- (has_key_eq id x y Hid Hy HKy Hk). exact (has_key_eq kv x y Hkv Hy HKy E2). }
  intros x. rewrite (Hx D' HM'), (Hx D HM), Ho. reflexivity.
Qed.

(** * Deleting *)

Lemma delete_effect (o : object) w kv : stores sem o (do_pk g) kv -> K kv -> model_table E K g (w_db w) ->
  delete o w = by_fate w (with_table (w_db w) t (others kv (w_db w t))).
Proof.
  intros Hst HK HM. unfold Obj.delete. assert (Efs : field_sql sem o (do_pk g) = Ok kv) by now apply field_sql_ok. rewrite Efs.
  unfold conn_delete. rewrite (delete_where_effect d kw b E gen KW EO).
  - f_equal. f_equal. unfold others. apply filter_ext. intros r. f_equal. apply eq_matches. now apply key_set.
  - exact (nm_table _ _ _ NO).
  - exact I.
  - split; [exact (nm_pk _ _ _ NO)|exact I].
  - eapply room_less; [|exact (nm_room _ _ _ NO)].
    assert (length (bound_values (BEq pk (EVal kv))) <= 1) by (destruct kv; cbn; lia).
    cbn in *. destruct (dr_columns (do_result g)); cbn in *; lia.
  - apply eq_ok. eapply Forall_impl; [|exact HM]. cbn beta. intros y [[_ N2] _]. apply N2, pk_in.
Qed.
End Obj.
