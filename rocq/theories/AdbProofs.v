(** Proofs about schema differences. *)
From Verif Require Import Base SqlVal Adb AdbSpec.

(** ** Generic list lemmas *)
Lemma omapm_ok {A B} (f : A -> outcome B) (g : A -> B) l :
  (forall x, In x l -> f x = Ok (g x)) -> omapm f l = Ok (map g l).
Proof.
  induction l as [|x r IH]; cbn; intros H; [reflexivity|].
  rewrite H by auto. cbn. rewrite IH by auto. reflexivity.
Qed.

(** ** Equality tests decide the specification's relations *)
Lemma dtype_eqb_iff a b : dtype_eqb a b = true <-> same_type a b.
Proof.
  unfold same_type. destruct a as [x|x|x], b as [y|y|y]; cbn.
  - destruct (sqltype_eqb_spec x y); split; congruence.
  - destruct y as [y|y]; cbn; [destruct (sqltype_eqb_spec x y)|]; split; congruence.
  - split; congruence.
  - destruct x as [x|x]; cbn; [destruct (sqltype_eqb_spec x y)|]; split; congruence.
  - destruct (typeid_eqb_spec x y); split; congruence.
  - split; congruence.
  - split; congruence.
  - split; congruence.
  - destruct (keqb_spec x y); split; congruence.
Qed.
Lemma aref_eqb_iff a b : aref_eqb a b = true <-> same_ref a b.
Proof.
  destruct a as [[t c]|x], b as [[u e]|y]; cbn; try (split; [congruence|tauto]).
  - rewrite andb_true_iff, !String.eqb_eq. split; [intros [-> ->]; reflexivity|].
    intros [= -> ->]; auto.
  - apply dtype_eqb_iff.
Qed.
Lemma opt_eqb_iff {A} f (R : A -> A -> Prop) a b :
  (forall x y, f x y = true <-> R x y) -> opt_eqb f a b = true <-> same_opt R a b.
Proof. intros H. destruct a, b; cbn; try tauto; try (split; [congruence|tauto]). apply H. Qed.
Lemma acol_eqb_iff a b : acol_eqb a b = true <-> same_column a b.
Proof.
  unfold acol_eqb. rewrite !andb_true_iff, String.eqb_eq, dtype_eqb_iff, !Bool.eqb_true_iff.
  rewrite (opt_eqb_iff _ _ _ _ sqlval_eqb_same), (opt_eqb_iff _ _ _ _ aref_eqb_iff).
  split.
  - intros (((((((? & ?) & ?) & ?) & ?) & ?) & ?) & ?). constructor; assumption.
  - intros []. tauto.
Qed.
Lemma same_type_refl a : same_type a a.
Proof. reflexivity. Qed.
Lemma same_ref_refl a : same_ref a a.
Proof. destruct a; cbn; reflexivity. Qed.
Lemma same_column_refl c : (forall v, c_default c = Some v -> ~ sqlval_nan v) -> same_column c c.
Proof.
  intros H. constructor; try reflexivity.
  - destruct (c_default c) as [v|]; cbn; [|exact I]. apply sqlval_eqb_same, sqlval_eqb_refl, H; reflexivity.
  - destruct (c_ref c); cbn; [apply same_ref_refl|exact I].
Qed.
Lemma sqlval_same_sym a b : sqlval_same a b -> sqlval_same b a.
Proof. intros (Ha & Hb & [->|(r & s & -> & -> & Hr & Hs)]); unfold sqlval_same; eauto 10. Qed.
Lemma same_column_sym a b : same_column a b -> same_column b a.
Proof.
  intros []. constructor; auto.
  - unfold same_type in *; congruence.
  - destruct (c_default a), (c_default b); cbn in *; auto using sqlval_same_sym.
  - destruct (c_ref a) as [x|], (c_ref b) as [y|]; cbn in *; auto.
    destruct x, y; cbn in *; unfold same_type in *; auto.
Qed.
Lemma same_table_refl t : wf_table t -> same_table t t.
Proof.
  intros [_ H]. split; [reflexivity|]. split; intros c Hc; exists c; (split; [assumption|]);
    apply same_column_refl; eauto.
Qed.

(** ** Columns by name *)
Lemma col_by_name_In cols n c : col_by_name cols n = Some c -> In c cols /\ c_name c = n.
Proof. unfold col_by_name. intros H. apply find_some in H as [H E]. apply String.eqb_eq in E. auto. Qed.
Lemma col_by_name_None cols n : col_by_name cols n = None <-> ~ In n (map c_name cols).
Proof.
  unfold col_by_name. induction cols as [|c r IH]; cbn; [tauto|].
  destruct (String.eqb_spec (c_name c) n) as [->|N].
  - split; [congruence|]. intros H; exfalso; apply H; auto.
  - rewrite IH. intuition congruence.
Qed.
Lemma In_col_by_name cols c : NoDup (map c_name cols) -> In c cols -> col_by_name cols (c_name c) = Some c.
Proof.
  unfold col_by_name. induction cols as [|d r IH]; cbn; [tauto|].
  intros ND Hin. inversion ND as [|? ? Hn ND']; subst.
  destruct (String.eqb_spec (c_name d) (c_name c)) as [E|N].
  - destruct Hin as [->|Hin]; [reflexivity|]. exfalso; apply Hn. rewrite E. apply in_map, Hin.
  - destruct Hin as [->|Hin]; [congruence|]. auto.
Qed.
Lemma col_by_name_some cols n : In n (map c_name cols) -> exists c, col_by_name cols n = Some c.
Proof.
  intros H. destruct (col_by_name cols n) as [c|] eqn:E; [eauto|].
  apply col_by_name_None in E. contradiction.
Qed.
Lemma col_by_name_replace cols c n :
  col_by_name (replace_col cols c) n = if String.eqb (c_name c) n then Some c else col_by_name cols n.
Proof.
  unfold col_by_name. induction cols as [|d r IH]; cbn.
  - destruct (String.eqb_spec (c_name c) n); reflexivity.
  - destruct (String.eqb_spec (c_name d) (c_name c)) as [E|N]; cbn.
    + rewrite E. destruct (String.eqb_spec (c_name c) n); reflexivity.
    + rewrite IH. destruct (String.eqb_spec (c_name d) n) as [E|N'].
      * destruct (String.eqb_spec (c_name c) n); [congruence|reflexivity].
      * reflexivity.
Qed.
Lemma replace_col_names cols c :
  map c_name (replace_col cols c)
  = if kmem (c_name c) (map c_name cols) then map c_name cols else map c_name cols ++ [c_name c].
Proof.
  induction cols as [|d r IH]; cbn; [reflexivity|].
  destruct (String.eqb_spec (c_name d) (c_name c)) as [E|N]; cbn.
  - rewrite kmem_cons, E, keqb_refl. reflexivity.
  - rewrite IH, kmem_cons. destruct (keqb_spec (c_name c) (c_name d)) as [E|_]; [congruence|]. cbn.
    destruct (kmem (c_name c) (map c_name r)); reflexivity.
Qed.
Lemma col_by_name_remove cols m n :
  col_by_name (filter (fun c => negb (String.eqb (c_name c) m)) cols) n
  = if String.eqb m n then None else col_by_name cols n.
Proof.
  unfold col_by_name. induction cols as [|d r IH]; cbn; [destruct (String.eqb m n); reflexivity|].
  destruct (String.eqb_spec (c_name d) m) as [E|N]; cbn.
  - rewrite IH, E. destruct (String.eqb_spec m n); reflexivity.
  - rewrite IH. destruct (String.eqb_spec (c_name d) n) as [E|N'].
    + destruct (String.eqb_spec m n); [congruence|reflexivity].
    + reflexivity.
Qed.
Lemma remove_names cols m :
  map c_name (filter (fun c => negb (String.eqb (c_name c) m)) cols)
  = filter (fun x => negb (String.eqb x m)) (map c_name cols).
Proof.
  induction cols as [|d r IH]; cbn; [reflexivity|].
  destruct (String.eqb (c_name d) m); cbn; rewrite IH; reflexivity.
Qed.

(** ** Operations addressing one table *)
Definition op_on_table (op : Operation) (t : ATable) : ATable :=
  match op with
  | AddColumn _ c => replace_column t c
  | RemoveColumn _ n => remove_column t n
  | ChangeColumn _ _ c => replace_column t c
  | _ => t
  end.
Definition op_col_table (op : Operation) : option string :=
  match op with
  | AddColumn n _ | RemoveColumn n _ | ChangeColumn n _ _ => Some n
  | _ => None
  end.

Lemma op_on_table_name op t : t_name (op_on_table op t) = t_name t.
Proof. destruct op; reflexivity. Qed.

Lemma transform_col_op d op n :
  msorted (a_tables d) -> op_col_table op = Some n ->
  a_types (transform_with d op) = a_types d /\ msorted (a_tables (transform_with d op)) /\
  forall m, get_table (transform_with d op) m
            = if keqb m n then option_map (op_on_table op) (get_table d n) else get_table d m.
Proof.
  intros S H.
  assert (G : forall f, a_types (update_table d n f) = a_types d /\ msorted (a_tables (update_table d n f)) /\
     forall m, get_table (update_table d n f) m = if keqb m n then option_map f (get_table d n) else get_table d m).
  { intros f. unfold update_table, get_table.
    destruct (mget n (a_tables d)) as [t|] eqn:E; cbn.
    - split; [reflexivity|]. split; [apply mput_sorted, S|]. intros m. rewrite mget_mput by exact S. reflexivity.
    - split; [reflexivity|]. split; [exact S|]. intros m. destruct (keqb_spec m n) as [->|]; [exact E|reflexivity]. }
  destruct op; cbn in H; try congruence; injection H as ->; cbn [transform_with op_on_table]; apply G.
Qed.

Lemma transform_col_ops ops d n :
  msorted (a_tables d) -> Forall (fun op => op_col_table op = Some n) ops ->
  a_types (transform_all d ops) = a_types d /\ msorted (a_tables (transform_all d ops)) /\
  forall m, get_table (transform_all d ops) m
    = if keqb m n then option_map (fun t => fold_left (fun t op => op_on_table op t) ops t) (get_table d n)
      else get_table d m.
Proof.
  unfold transform_all. revert d; induction ops as [|op ops IH]; intros d S F; cbn.
  - split; [reflexivity|]. split; [exact S|]. intros m. destruct (keqb_spec m n) as [->|]; [|reflexivity].
    destruct (get_table d n); reflexivity.
  - inversion F as [|? ? Hop F']; subst.
    destruct (transform_col_op d op n S Hop) as (T1 & S1 & G1).
    destruct (IH _ S1 F') as (T2 & S2 & G2).
    split; [congruence|]. split; [exact S2|]. intros m. rewrite G2, !G1, keqb_refl.
    destruct (keqb_spec m n); [|reflexivity]. destruct (get_table d n); reflexivity.
Qed.

(** ** [diff_table] *)
Section DiffTable.
  Variables old new : ATable.
  Hypothesis Wo : wf_table old.
  Hypothesis Wn : wf_table new.
  Let nn := set_of_list (map c_name (t_cols new)).
  Let on := set_of_list (map c_name (t_cols old)).

  Definition get_col (cols : list AColumn) (n : string) : AColumn :=
    match col_by_name cols n with Some c => c | None => acol_simple n (Deferred (PK "")) end.
  Lemma get_col_some cols n : In n (map c_name cols) -> col_by_name cols n = Some (get_col cols n).
  Proof. intros H. unfold get_col. destruct (col_by_name_some cols n H) as [c ->]. reflexivity. Qed.
  Lemma get_col_name cols n : In n (map c_name cols) -> c_name (get_col cols n) = n.
  Proof. intros H. apply get_col_some, col_by_name_In in H. tauto. Qed.

  Definition adds := map (fun n => AddColumn (t_name new) (get_col (t_cols new) n)) (sdiff nn on).
  Definition removes := map (fun n => RemoveColumn (t_name old) n) (sdiff on nn).
  Definition change_of n :=
    if acol_eqb (get_col (t_cols new) n) (get_col (t_cols old) n) then []
    else [ChangeColumn (t_name new) (get_col (t_cols old) n) (get_col (t_cols new) n)].
  Definition changes := concat (map change_of (sinter nn on)).

  Lemma diff_table_eq : diff_table old new = Ok (adds ++ removes ++ changes).
  Proof.
    unfold diff_table, adds, removes, changes. fold nn on.
    rewrite (omapm_ok _ (fun n => AddColumn (t_name new) (get_col (t_cols new) n))).
    2: { intros n Hn. apply sdiff_In in Hn as [Hn _]. unfold nn in Hn. rewrite set_of_list_In in Hn.
         rewrite get_col_some by exact Hn. reflexivity. }
    cbn. rewrite (omapm_ok _ change_of); [reflexivity|].
    intros n Hn. apply sinter_In in Hn as [Hn Ho]. unfold nn, on in *. rewrite set_of_list_In in *.
    rewrite !get_col_some by assumption. reflexivity.
  Qed.

  Lemma changes_In op : In op changes <->
    exists n, In n nn /\ In n on /\ op = ChangeColumn (t_name new) (get_col (t_cols old) n) (get_col (t_cols new) n)
              /\ acol_eqb (get_col (t_cols new) n) (get_col (t_cols old) n) = false.
  Proof.
    unfold changes. rewrite in_concat. split.
    - intros (l & Hl & Hop). apply in_map_iff in Hl as (n & <- & Hn). apply sinter_In in Hn.
      unfold change_of in Hop. destruct (acol_eqb _ _) eqn:E; [destruct Hop|].
      destruct Hop as [<-|[]]. exists n. tauto.
    - intros (n & Hn & Ho & -> & E). exists (change_of n). split.
      + apply in_map, sinter_In; auto.
      + unfold change_of. rewrite E. left; reflexivity.
  Qed.

  Definition fold_ops (ops : list Operation) (t : ATable) : ATable :=
    fold_left (fun t op => op_on_table op t) ops t.

  Lemma fold_adds l t :
    (forall n, In n l -> In n (map c_name (t_cols new))) -> NoDup l ->
    forall m, col_by_name (t_cols (fold_ops (map (fun n => AddColumn (t_name new) (get_col (t_cols new) n)) l) t)) m
      = if kmem m l then Some (get_col (t_cols new) m) else col_by_name (t_cols t) m.
  Proof.
    unfold fold_ops. revert t; induction l as [|n l IH]; intros t Hl ND m; cbn; [reflexivity|].
    inversion ND as [|? ? Hn ND']; subst.
    rewrite IH by (auto with datatypes). rewrite kmem_cons. cbn [replace_column t_cols]. rewrite col_by_name_replace.
    rewrite get_col_name by auto with datatypes.
    destruct (kmem m l) eqn:E; cbn.
    - rewrite orb_true_r. reflexivity.
    - rewrite orb_false_r. destruct (keqb_spec m n) as [->|N].
      + rewrite String.eqb_refl. reflexivity.
      + destruct (String.eqb_spec n m); [congruence|reflexivity].
  Qed.
  Lemma fold_removes l t :
    forall m, col_by_name (t_cols (fold_ops (map (fun n => RemoveColumn (t_name old) n) l) t)) m
      = if kmem m l then None else col_by_name (t_cols t) m.
  Proof.
    unfold fold_ops. revert t; induction l as [|n l IH]; intros t m; cbn; [reflexivity|].
    rewrite IH, kmem_cons. cbn [remove_column t_cols]. rewrite col_by_name_remove.
    destruct (kmem m l) eqn:E; cbn.
    - rewrite orb_true_r. reflexivity.
    - rewrite orb_false_r. destruct (keqb_spec m n) as [->|N].
      + rewrite String.eqb_refl. reflexivity.
      + destruct (String.eqb_spec n m); [congruence|reflexivity].
  Qed.
  Lemma fold_changes l t :
    (forall n, In n l -> In n (map c_name (t_cols new))) ->
    forall m, col_by_name (t_cols (fold_ops (concat (map change_of l)) t)) m
      = if kmem m l && negb (acol_eqb (get_col (t_cols new) m) (get_col (t_cols old) m))
        then Some (get_col (t_cols new) m) else col_by_name (t_cols t) m.
  Proof.
    unfold fold_ops. revert t; induction l as [|n l IH]; intros t Hl m; cbn; [reflexivity|].
    rewrite fold_left_app, IH, kmem_cons by auto with datatypes.
    destruct (kmem m l) eqn:E; cbn.
    - rewrite orb_true_r. destruct (acol_eqb (get_col (t_cols new) m) _) eqn:Em; cbn; [|reflexivity].
      unfold change_of. destruct (acol_eqb (get_col (t_cols new) n) _) eqn:En; cbn; [reflexivity|].
      rewrite col_by_name_replace, get_col_name by auto with datatypes.
      destruct (String.eqb_spec n m) as [->|]; [congruence|reflexivity].
    - rewrite orb_false_r. unfold change_of.
      destruct (keqb_spec m n) as [->|N]; cbn.
      + destruct (acol_eqb (get_col (t_cols new) n) _) eqn:En; cbn; [reflexivity|].
        rewrite col_by_name_replace, get_col_name, String.eqb_refl by auto with datatypes. reflexivity.
      + destruct (acol_eqb (get_col (t_cols new) n) _) eqn:En; cbn; [reflexivity|].
        rewrite col_by_name_replace, get_col_name by auto with datatypes.
        destruct (String.eqb_spec n m) as [->|]; [congruence|reflexivity].
  Qed.

  Lemma diff_table_lookup m :
    col_by_name (t_cols (fold_ops (adds ++ removes ++ changes) old)) m
    = if kmem m nn then
        if kmem m on then
          if acol_eqb (get_col (t_cols new) m) (get_col (t_cols old) m)
          then Some (get_col (t_cols old) m) else Some (get_col (t_cols new) m)
        else Some (get_col (t_cols new) m)
      else None.
  Proof.
    unfold fold_ops. rewrite !fold_left_app. fold (fold_ops adds old).
    fold (fold_ops removes (fold_ops adds old)).
    fold (fold_ops changes (fold_ops removes (fold_ops adds old))).
    unfold changes. rewrite fold_changes.
    2: { intros n Hn. apply sinter_In in Hn as [Hn _]. unfold nn in Hn. rewrite set_of_list_In in Hn. exact Hn. }
    unfold removes. rewrite fold_removes. unfold adds. rewrite fold_adds.
    2: { intros n Hn. apply sdiff_In in Hn as [Hn _]. unfold nn in Hn. rewrite set_of_list_In in Hn. exact Hn. }
    2: { apply sorted_NoDup, filter_sorted, set_of_list_sorted. }
    assert (K : forall a b x, kmem x (sdiff a b) = kmem x a && negb (@kmem string _ x b)).
    { intros a b x. apply eq_true_iff_eq. rewrite andb_true_iff, negb_true_iff, kmem_not_In, !kmem_In. apply sdiff_In. }
    assert (K2 : forall a b x, kmem x (sinter a b) = kmem x a && @kmem string _ x b).
    { intros a b x. apply eq_true_iff_eq. rewrite andb_true_iff, !kmem_In. apply sinter_In. }
    rewrite K2, !K.
    destruct (kmem m nn) eqn:En, (kmem m on) eqn:Eo; cbn; try reflexivity.
    - destruct (acol_eqb _ _); cbn; [|reflexivity].
      apply get_col_some. apply kmem_In in Eo. unfold on in Eo. rewrite set_of_list_In in Eo. exact Eo.
    - apply col_by_name_None. intros Hm. apply kmem_not_In in Eo. apply Eo. unfold on.
      apply set_of_list_In. exact Hm.
  Qed.

  Lemma fold_ops_name ops t : t_name (fold_ops ops t) = t_name t.
  Proof. unfold fold_ops. revert t; induction ops as [|op ops IH]; intros t; cbn; [reflexivity|]. rewrite IH. apply op_on_table_name. Qed.


  (** The order of columns: the surviving columns of [old] in their order, then the
      added ones by name. *)
  Lemma names_adds l t :
    (forall n, In n l -> In n (map c_name (t_cols new))) -> NoDup l ->
    (forall n, In n l -> ~ In n (map c_name (t_cols t))) ->
    map c_name (t_cols (fold_ops (map (fun n => AddColumn (t_name new) (get_col (t_cols new) n)) l) t))
    = map c_name (t_cols t) ++ l.
  Proof.
    unfold fold_ops. revert t; induction l as [|n l IH]; intros t Hl ND Hf; cbn; [now rewrite app_nil_r|].
    inversion ND as [|? ? Hn ND']; subst.
    assert (E : map c_name (t_cols (replace_column t (get_col (t_cols new) n))) = map c_name (t_cols t) ++ [n]).
    { cbn [replace_column t_cols]. rewrite replace_col_names, get_col_name by auto with datatypes.
      rewrite (proj2 (kmem_not_In _ _)) by auto with datatypes. reflexivity. }
    rewrite IH, E.
    - rewrite <- app_assoc. reflexivity.
    - auto with datatypes.
    - assumption.
    - intros x Hx. rewrite E, in_app_iff. cbn. intros [Hx'|[->|[]]]; [|contradiction].
      exact (Hf x (or_intror Hx) Hx').
  Qed.
  Lemma names_removes l t :
    map c_name (t_cols (fold_ops (map (fun n => RemoveColumn (t_name old) n) l) t))
    = filter (fun x => negb (kmem x l)) (map c_name (t_cols t)).
  Proof.
    unfold fold_ops. revert t; induction l as [|n l IH]; intros t; cbn.
    - symmetry. apply filter_true. reflexivity.
    - rewrite IH. cbn [remove_column t_cols]. rewrite remove_names, filter_filter.
      apply filter_ext. intros x. rewrite kmem_cons. destruct (keqb_spec x n) as [->|N].
      + rewrite String.eqb_refl. reflexivity.
      + destruct (String.eqb_spec x n); [congruence|reflexivity].
  Qed.
  Lemma names_changes l t :
    (forall n, In n l -> In n (map c_name (t_cols new)) /\ In n (map c_name (t_cols t))) ->
    map c_name (t_cols (fold_ops (concat (map change_of l)) t)) = map c_name (t_cols t).
  Proof.
    unfold fold_ops. revert t; induction l as [|n l IH]; intros t Hl; cbn; [reflexivity|].
    rewrite fold_left_app.
    assert (E : map c_name (t_cols (fold_left (fun t op => op_on_table op t) (change_of n) t)) = map c_name (t_cols t)).
    { unfold change_of. destruct (acol_eqb _ _); cbn; [reflexivity|].
      destruct (Hl n (or_introl eq_refl)) as [H1 H2].
      rewrite replace_col_names, get_col_name by assumption.
      rewrite (proj2 (kmem_In _ _) H2). reflexivity. }
    rewrite IH, E; [reflexivity|]. intros x Hx. rewrite E. auto with datatypes.
  Qed.
  Lemma diff_table_names :
    map c_name (t_cols (fold_ops (adds ++ removes ++ changes) old))
    = filter (fun x => kmem x (map c_name (t_cols new))) (map c_name (t_cols old)) ++ sdiff nn on.
  Proof.
    unfold fold_ops. rewrite !fold_left_app. fold (fold_ops adds old).
    fold (fold_ops removes (fold_ops adds old)).
    fold (fold_ops changes (fold_ops removes (fold_ops adds old))).
    assert (EA : map c_name (t_cols (fold_ops adds old)) = map c_name (t_cols old) ++ sdiff nn on).
    { unfold adds. apply names_adds.
      - intros n Hn. apply sdiff_In in Hn as [Hn _]. unfold nn in Hn. rewrite set_of_list_In in Hn. exact Hn.
      - apply sorted_NoDup, filter_sorted, set_of_list_sorted.
      - intros n Hn. apply sdiff_In in Hn as [_ Hn]. unfold on in Hn. rewrite set_of_list_In in Hn. exact Hn. }
    assert (ER : map c_name (t_cols (fold_ops removes (fold_ops adds old)))
                 = filter (fun x => kmem x (map c_name (t_cols new))) (map c_name (t_cols old)) ++ sdiff nn on).
    { unfold removes. rewrite names_removes, EA, filter_app. f_equal.
      - apply filter_ext_in. intros x Hx. apply eq_true_iff_eq.
        rewrite negb_true_iff, kmem_not_In, kmem_In, sdiff_In. unfold on, nn. rewrite !set_of_list_In.
        destruct (in_dec string_dec x (map c_name (t_cols new))); tauto.
      - apply filter_true. intros x Hx. rewrite negb_true_iff, kmem_not_In, sdiff_In.
        apply sdiff_In in Hx. tauto. }
    rewrite <- ER. unfold changes. apply names_changes.
    intros n Hn. apply sinter_In in Hn as [Hn Ho]. unfold nn, on in *. rewrite set_of_list_In in *.
    split; [assumption|]. rewrite ER, in_app_iff, filter_In, kmem_In. tauto.
  Qed.

  Lemma diff_table_same : t_name old = t_name new ->
    same_table (fold_ops (adds ++ removes ++ changes) old) new
    /\ NoDup (map c_name (t_cols (fold_ops (adds ++ removes ++ changes) old))).
  Proof.
    intros Hname. set (r := fold_ops _ old).
    assert (ND : NoDup (map c_name (t_cols r))).
    { unfold r. rewrite diff_table_names. apply NoDup_app_iff. split; [apply NoDup_filter, Wo|].
      split; [apply sorted_NoDup, filter_sorted, set_of_list_sorted|].
      intros x Hx Hx'. apply filter_In in Hx as [Hx _]. apply sdiff_In in Hx' as [_ Hx'].
      apply Hx'. unfold on. apply set_of_list_In. exact Hx. }
    assert (Nnan : forall c, In c (t_cols new) -> same_column c c).
    { intros c Hc. apply same_column_refl. intros v. apply (proj2 Wn c v Hc). }
    split; [|exact ND].
    split; [unfold r; rewrite fold_ops_name; exact Hname|]. split.
    - intros c Hc. pose proof (In_col_by_name _ _ ND Hc) as L. unfold r in L.
      rewrite diff_table_lookup in L.
      destruct (kmem (c_name c) nn) eqn:En; [|congruence].
      apply kmem_In in En. unfold nn in En. rewrite set_of_list_In in En.
      pose proof (get_col_some _ _ En) as G. apply col_by_name_In in G as [Gin _].
      destruct (kmem (c_name c) on) eqn:Eo.
      + destruct (acol_eqb _ _) eqn:Eq.
        * injection L as Ec. eexists; split; [exact Gin|]. rewrite Ec in Eq.
          apply same_column_sym, acol_eqb_iff. exact Eq.
        * injection L as Ec. exists c. rewrite Ec in Gin. auto.
      + injection L as Ec. exists c. rewrite Ec in Gin. auto.
    - intros c Hc. pose proof (In_col_by_name _ _ (proj1 Wn) Hc) as G.
      assert (En : In (c_name c) (map c_name (t_cols new))) by (apply in_map; exact Hc).
      assert (Eg : get_col (t_cols new) (c_name c) = c) by (unfold get_col; rewrite G; reflexivity).
      pose proof (diff_table_lookup (c_name c)) as L. fold r in L.
      rewrite (proj2 (kmem_In _ nn)) in L by (unfold nn; apply set_of_list_In; exact En).
      rewrite Eg in L.
      destruct (kmem (c_name c) on) eqn:Eo.
      + destruct (acol_eqb _ _) eqn:Eq.
        * apply col_by_name_In in L as [L _]. eexists; split; [exact L|].
          apply same_column_sym, acol_eqb_iff. exact Eq.
        * apply col_by_name_In in L as [L _]. exists c. auto.
      + apply col_by_name_In in L as [L _]. exists c. auto.
  Qed.
End DiffTable.

(** ** [diff] *)
Definition gt (d : ADB) (n : string) : ATable :=
  match get_table d n with Some t => t | None => {| t_name := n; t_cols := [] |} end.
Lemma gt_some d n : In n (mkeys (a_tables d)) -> get_table d n = Some (gt d n).
Proof. intros H. unfold gt, get_table. apply mget_keys in H as [t ->]. reflexivity. Qed.
Lemma gt_wf d n : wf_schema d -> In n (mkeys (a_tables d)) -> t_name (gt d n) = n /\ wf_table (gt d n).
Proof. intros [S W] H. apply W, mget_In. fold (get_table d n). apply gt_some, H. Qed.

Section Diff.
  Variables old new : ADB.
  Hypothesis Wo : wf_schema old.
  Hypothesis Wn : wf_schema new.
  Let N := mkeys (a_tables new).
  Let O := mkeys (a_tables old).

  Definition d_adds := map (fun n => AddTable (gt new n)) (sdiff N O).
  Definition d_uncon := map (fun n => RemoveTableConstraints (gt old n)) (sdiff O N).
  Definition d_drops := map RemoveTable (sdiff O N).
  Definition table_ops n := adds (gt old n) (gt new n) ++ removes (gt old n) (gt new n) ++ changes (gt old n) (gt new n).
  Definition d_changes := concat (map table_ops (sinter N O)).
  Definition con_of n := if has_ref (gt new n) then [AddTableConstraints (gt new n)] else [].
  Definition d_cons := concat (map con_of (sdiff N O)).
  Definition d_all := d_adds ++ d_uncon ++ d_drops ++ d_changes ++ d_cons.

  Lemma diff_eq : diff_out old new = Ok d_all.
  Proof.
    unfold diff_out. fold N O.
    rewrite (omapm_ok _ (fun n => AddTable (gt new n))).
    2: { intros n Hn. apply sdiff_In in Hn as [Hn _]. rewrite gt_some by exact Hn. reflexivity. }
    cbn. rewrite (omapm_ok _ (fun n => RemoveTableConstraints (gt old n))).
    2: { intros n Hn. apply sdiff_In in Hn as [Hn _]. rewrite gt_some by exact Hn. reflexivity. }
    cbn. rewrite (omapm_ok _ table_ops).
    2: { intros n Hn. apply sinter_In in Hn as [Hn Ho]. rewrite !gt_some by assumption. cbn.
         apply diff_table_eq. }
    cbn. rewrite (omapm_ok _ con_of).
    2: { intros n Hn. apply sdiff_In in Hn as [Hn _]. rewrite gt_some by exact Hn. reflexivity. }
    reflexivity.
  Qed.

  Lemma after_adds l d : msorted (a_tables d) -> (forall n, In n l -> In n N) ->
    let r := transform_all d (map (fun n => AddTable (gt new n)) l) in
    a_types r = a_types d /\ msorted (a_tables r) /\
    forall m, get_table r m = if kmem m l then Some (gt new m) else get_table d m.
  Proof.
    unfold transform_all. revert d; induction l as [|n l IH]; intros d S Hl; cbn; [auto|].
    destruct (gt_wf new n Wn (Hl n (or_introl eq_refl))) as [En _].
    destruct (IH (replace_table d (gt new n))) as (T & S' & G).
    { cbn. apply mput_sorted, S. }
    { auto with datatypes. }
    cbn in T. split; [exact T|]. split; [exact S'|]. intros m. rewrite G, kmem_cons.
    destruct (kmem m l); [now rewrite orb_true_r|]. rewrite orb_false_r.
    unfold get_table, replace_table; cbn. rewrite mget_mput by exact S. rewrite En.
    destruct (keqb_spec m n) as [->|]; reflexivity.
  Qed.
  Lemma after_uncon (f : string -> Operation) l d : (forall n, transform_with d (f n) = d) -> transform_all d (map f l) = d.
  Proof. unfold transform_all. induction l as [|n l IH]; intros H; cbn; [reflexivity|]. rewrite H. apply IH, H. Qed.
  Lemma after_drops l d : msorted (a_tables d) ->
    let r := transform_all d (map RemoveTable l) in
    a_types r = a_types d /\ msorted (a_tables r) /\
    forall m, get_table r m = if kmem m l then None else get_table d m.
  Proof.
    unfold transform_all. revert d; induction l as [|n l IH]; intros d S; cbn; [auto|].
    destruct (IH (remove_table d n)) as (T & S' & G); [cbn; apply mdel_sorted, S|].
    split; [exact T|]. split; [exact S'|]. intros m. rewrite G, kmem_cons.
    destruct (kmem m l); [now rewrite orb_true_r|]. rewrite orb_false_r.
    unfold get_table, remove_table; cbn. rewrite mget_mdel. destruct (keqb_spec m n) as [->|]; reflexivity.
  Qed.
  Lemma after_changes (ops_of : string -> list Operation) l d : msorted (a_tables d) -> NoDup l ->
    (forall n, In n l -> Forall (fun op => op_col_table op = Some n) (ops_of n)) ->
    let r := transform_all d (concat (map ops_of l)) in
    a_types r = a_types d /\ msorted (a_tables r) /\
    forall m, get_table r m = if kmem m l then option_map (fold_ops (ops_of m)) (get_table d m) else get_table d m.
  Proof.
    revert d; induction l as [|n l IH]; intros d S ND F; cbn; [auto|].
    inversion ND as [|? ? Hn ND']; subst.
    unfold transform_all. rewrite fold_left_app. fold (transform_all d (ops_of n)).
    fold (transform_all (transform_all d (ops_of n)) (concat (map ops_of l))).
    destruct (transform_col_ops (ops_of n) d n S (F n (or_introl eq_refl))) as (T1 & S1 & G1).
    destruct (IH (transform_all d (ops_of n)) S1 ND') as (T2 & S2 & G2); [auto with datatypes|].
    split; [congruence|]. split; [exact S2|]. intros m. rewrite G2, !G1, kmem_cons.
    destruct (keqb_spec m n) as [->|Nmn]; cbn.
    - rewrite (proj2 (kmem_not_In n l) Hn). reflexivity.
    - reflexivity.
  Qed.
  Lemma after_cons l d : transform_all d (concat (map con_of l)) = d.
  Proof.
    unfold transform_all. induction l as [|n l IH]; cbn; [reflexivity|].
    rewrite fold_left_app. unfold con_of at 2. destruct (has_ref (gt new n)); cbn; exact IH.
  Qed.

  Lemma table_ops_on n : In n N -> In n O -> Forall (fun op => op_col_table op = Some n) (table_ops n).
  Proof.
    intros HN HO. destruct (gt_wf new n Wn HN) as [E1 _]. destruct (gt_wf old n Wo HO) as [E2 _].
    apply Forall_forall. intros op Hop. unfold table_ops in Hop. rewrite !in_app_iff in Hop.
    destruct Hop as [Hop|[Hop|Hop]].
    - apply in_map_iff in Hop as (x & <- & _). cbn. congruence.
    - apply in_map_iff in Hop as (x & <- & _). cbn. congruence.
    - apply changes_In in Hop as (x & _ & _ & -> & _). cbn. congruence.
  Qed.

  Lemma diff_lookup :
    let r := transform_all old d_all in
    a_types r = a_types old /\ msorted (a_tables r) /\
    forall m, get_table r m =
      if kmem m N then
        if kmem m O then Some (fold_ops (table_ops m) (gt old m)) else Some (gt new m)
      else None.
  Proof.
    unfold d_all, transform_all. rewrite !fold_left_app.
    set (r1 := fold_left transform_with d_adds old).
    destruct (after_adds (sdiff N O) old (proj1 Wo)) as (T1 & S1 & G1).
    { intros n Hn. apply sdiff_In in Hn. tauto. }
    fold d_adds in T1, S1, G1. unfold transform_all in T1, S1, G1. fold r1 in T1, S1, G1.
    pose proof (after_uncon (fun n => RemoveTableConstraints (gt old n)) (sdiff O N) r1 (fun _ => eq_refl)) as E2.
    fold d_uncon in E2. unfold transform_all in E2. rewrite E2. clear E2.
    destruct (after_drops (sdiff O N) r1 S1) as (T3 & S3 & G3). fold d_drops in T3, S3, G3.
    unfold transform_all in T3, S3, G3. set (r3 := fold_left transform_with d_drops r1) in *.
    destruct (after_changes table_ops (sinter N O) r3 S3) as (T4 & S4 & G4).
    { apply sorted_NoDup, filter_sorted, (proj1 Wn). }
    { intros n Hn. apply sinter_In in Hn as [HN HO]. apply table_ops_on; assumption. }
    fold d_changes in T4, S4, G4. unfold transform_all in T4, S4, G4.
    set (r4 := fold_left transform_with d_changes r3) in *.
    pose proof (after_cons (sdiff N O) r4) as E5. fold d_cons in E5. unfold transform_all in E5. rewrite E5. clear E5.
    split; [congruence|]. split; [exact S4|]. intros m. rewrite G4, G3, G1.
    assert (K : forall a b x, kmem x (sdiff a b) = kmem x a && negb (@kmem string _ x b)).
    { intros a b x. apply eq_true_iff_eq. rewrite andb_true_iff, negb_true_iff, kmem_not_In, !kmem_In. apply sdiff_In. }
    assert (K2 : forall a b x, kmem x (sinter a b) = kmem x a && @kmem string _ x b).
    { intros a b x. apply eq_true_iff_eq. rewrite andb_true_iff, !kmem_In. apply sinter_In. }
    rewrite K2, !K. destruct (kmem m N) eqn:EN, (kmem m O) eqn:EO; cbn; try reflexivity.
    - apply kmem_In in EO. rewrite gt_some by exact EO. reflexivity.
    - apply kmem_not_In in EO. unfold get_table. apply mget_None. exact EO.
  Qed.

  Lemma diff_reaches : same_schema (transform_all old d_all) new /\ wf_schema (transform_all old d_all)
    /\ a_types (transform_all old d_all) = a_types old.
  Proof.
    destruct diff_lookup as (T & S & G). cbv zeta in T, S, G. set (r := transform_all old d_all) in *.
    assert (Both : forall m, In m N -> In m O ->
        same_table (fold_ops (table_ops m) (gt old m)) (gt new m) /\
    NoDup (map c_name (t_cols (fold_ops (table_ops m) (gt old m))))).
    { intros m HN HO. destruct (gt_wf new m Wn HN) as [E1 W1]. destruct (gt_wf old m Wo HO) as [E2 W2].
      unfold table_ops. apply diff_table_same; [assumption..|congruence]. }
    assert (Main : forall m t, get_table r m = Some t ->
       In m N /\ same_table t (gt new m) /\ NoDup (map c_name (t_cols t))).
    { intros m t Ht. rewrite G in Ht. destruct (kmem m N) eqn:EN; [|congruence]. apply kmem_In in EN.
      split; [exact EN|]. destruct (kmem m O) eqn:EO; injection Ht as <-.
      - apply Both; [assumption|]. apply kmem_In; assumption.
      - destruct (gt_wf new m Wn EN) as [E1 W1]. split; [apply same_table_refl, W1|apply W1]. }
    split; [|split; [|exact T]].
    - split.
      + intros n t Hin. apply (In_mget n t _ S) in Hin. destruct (Main n t Hin) as (HN & HS & _).
        exists (gt new n). split; [|exact HS]. apply mget_In. apply (gt_some new n HN).
      + intros n u Hin. pose proof (In_mget n u _ (proj1 Wn) Hin) as Hu.
        assert (HN : In n N) by (apply mget_keys; eauto).
        assert (Eu : gt new n = u) by (unfold gt, get_table; rewrite Hu; reflexivity).
        pose proof (G n) as Gn. rewrite (proj2 (kmem_In n N) HN) in Gn.
        assert (exists t, get_table r n = Some t) as [t Ht] by (destruct (kmem n O); eauto).
        exists t. split; [apply mget_In; exact Ht|].
        destruct (Main n t Ht) as (_ & HS & _). rewrite Eu in HS. exact HS.
    - split; [exact S|]. intros n t Hin. apply (In_mget n t _ S) in Hin.
      destruct (Main n t Hin) as (HN & (HS1 & HS2 & HS3) & ND). destruct (gt_wf new n Wn HN) as [E1 [_ W1]].
      split; [congruence|]. split; [exact ND|].
      intros c v Hc Hv. destruct (HS2 c Hc) as (c' & Hc' & []). rewrite Hv in sc_default.
      destruct (c_default c') as [v'|]; cbn in sc_default; [|tauto]. apply sc_default.
  Qed.
End Diff.

(** ** Sameness through lookups *)
Lemma sqlval_same_trans a b c : sqlval_same a b -> sqlval_same b c -> sqlval_same a c.
Proof.
  intros (Ha & Hb & H1) (_ & Hc & H2). split; [exact Ha|]. split; [exact Hc|].
  destruct H1 as [->|(r & s & -> & Eb & Hr & Hs)]; [exact H2|].
  destruct H2 as [<-|(r' & s' & E & -> & Hr' & Hs')]; eauto 10.
Qed.
Lemma same_opt_trans {A} (R : A -> A -> Prop) a b c :
  (forall x y z, R x y -> R y z -> R x z) -> same_opt R a b -> same_opt R b c -> same_opt R a c.
Proof. intros H. destruct a, b, c; cbn; try tauto. apply H. Qed.
Lemma same_opt_sym {A} (R : A -> A -> Prop) a b :
  (forall x y, R x y -> R y x) -> same_opt R a b -> same_opt R b a.
Proof. intros H. destruct a, b; cbn; try tauto. apply H. Qed.
Lemma same_ref_trans a b c : same_ref a b -> same_ref b c -> same_ref a c.
Proof. destruct a, b, c; cbn; try tauto; unfold same_type; congruence. Qed.
Lemma same_column_trans a b c : same_column a b -> same_column b c -> same_column a c.
Proof.
  intros [] []. unfold same_type in *. constructor; unfold same_type; try congruence.
  - eapply same_opt_trans; eauto using sqlval_same_trans.
  - eapply same_opt_trans; eauto using same_ref_trans.
Qed.
Lemma same_table_sym t u : same_table t u -> same_table u t.
Proof.
  intros (E & H1 & H2). split; [congruence|]. split; intros c Hc.
  - destruct (H2 c Hc) as (c' & ? & ?). eauto using same_column_sym.
  - destruct (H1 c Hc) as (c' & ? & ?). eauto using same_column_sym.
Qed.
Lemma same_table_trans t u v : same_table t u -> same_table u v -> same_table t v.
Proof.
  intros (E & H1 & H2) (E' & H1' & H2'). split; [congruence|]. split; intros c Hc.
  - destruct (H1 c Hc) as (c' & Hc' & S). destruct (H1' c' Hc') as (c'' & Hc'' & S').
    eauto using same_column_trans.
  - destruct (H2' c Hc) as (c' & Hc' & S). destruct (H2 c' Hc') as (c'' & Hc'' & S').
    eauto using same_column_trans.
Qed.
Lemma same_schema_sym a b : same_schema a b -> same_schema b a.
Proof.
  intros [H1 H2]. split; intros n t Ht.
  - destruct (H2 n t Ht) as (u & ? & ?). eauto using same_table_sym.
  - destruct (H1 n t Ht) as (u & ? & ?). eauto using same_table_sym.
Qed.
Lemma same_schema_trans a b c : same_schema a b -> same_schema b c -> same_schema a c.
Proof.
  intros [H1 H2] [H1' H2']. split; intros n t Ht.
  - destruct (H1 n t Ht) as (u & Hu & S). destruct (H1' n u Hu) as (v & ? & ?). eauto using same_table_trans.
  - destruct (H2' n t Ht) as (u & Hu & S). destruct (H2 n u Hu) as (v & ? & ?). eauto using same_table_trans.
Qed.

Lemma same_table_lookup t u : wf_table t -> wf_table u ->
  same_table t u <->
  t_name t = t_name u /\ forall n, same_opt same_column (col_by_name (t_cols t) n) (col_by_name (t_cols u) n).
Proof.
  intros [Nt _] [Nu _]. split.
  - intros (E & H1 & H2). split; [exact E|]. intros n.
    destruct (col_by_name (t_cols t) n) as [c|] eqn:Et; destruct (col_by_name (t_cols u) n) as [e|] eqn:Eu; cbn; auto.
    + apply col_by_name_In in Et as [Hc Ec]. destruct (H1 c Hc) as (c' & Hc' & S).
      pose proof (In_col_by_name _ _ Nu Hc') as L. rewrite <- (sc_name _ _ S), Ec in L.
      rewrite L in Eu. injection Eu as ->. exact S.
    + apply col_by_name_In in Et as [Hc Ec]. destruct (H1 c Hc) as (c' & Hc' & S).
      pose proof (In_col_by_name _ _ Nu Hc') as L. rewrite <- (sc_name _ _ S), Ec in L. congruence.
    + apply col_by_name_In in Eu as [Hc Ec]. destruct (H2 e Hc) as (c' & Hc' & S).
      pose proof (In_col_by_name _ _ Nt Hc') as L. rewrite (sc_name _ _ S), Ec in L. congruence.
  - intros (E & H). split; [exact E|]. split; intros c Hc.
    + specialize (H (c_name c)). rewrite (In_col_by_name _ _ Nt Hc) in H.
      destruct (col_by_name (t_cols u) (c_name c)) as [e|] eqn:Eu; cbn in H; [|tauto].
      apply col_by_name_In in Eu as [He _]. eauto.
    + specialize (H (c_name c)). rewrite (In_col_by_name _ _ Nu Hc) in H.
      destruct (col_by_name (t_cols t) (c_name c)) as [e|] eqn:Eu; cbn in H; [|tauto].
      apply col_by_name_In in Eu as [He _]. eauto.
Qed.
Lemma same_schema_lookup a b : msorted (a_tables a) -> msorted (a_tables b) ->
  same_schema a b <-> forall n, same_opt same_table (get_table a n) (get_table b n).
Proof.
  intros Sa Sb. unfold get_table. split.
  - intros (H1 & H2) n.
    destruct (mget n (a_tables a)) as [t|] eqn:Ea; destruct (mget n (a_tables b)) as [u|] eqn:Eb; cbn; auto.
    + destruct (H1 n t (mget_In _ _ _ Ea)) as (u' & Hu & S). rewrite (In_mget _ _ _ Sb Hu) in Eb.
      injection Eb as ->. exact S.
    + destruct (H1 n t (mget_In _ _ _ Ea)) as (u' & Hu & S). rewrite (In_mget _ _ _ Sb Hu) in Eb. congruence.
    + destruct (H2 n u (mget_In _ _ _ Eb)) as (u' & Hu & S). rewrite (In_mget _ _ _ Sa Hu) in Ea. congruence.
  - intros H. split; intros n t Ht.
    + specialize (H n). rewrite (In_mget _ _ _ Sa Ht) in H. destruct (mget n (a_tables b)) as [u|] eqn:Eb; cbn in H; [|tauto].
      exists u. split; [apply mget_In; exact Eb|exact H].
    + specialize (H n). rewrite (In_mget _ _ _ Sb Ht) in H. destruct (mget n (a_tables a)) as [u|] eqn:Eb; cbn in H; [|tauto].
      exists u. split; [apply mget_In; exact Eb|exact H].
Qed.
Lemma wf_get d n t : wf_schema d -> get_table d n = Some t -> t_name t = n /\ wf_table t.
Proof. intros [_ W] H. apply W, mget_In, H. Qed.
Lemma wf_intro d : msorted (a_tables d) ->
  (forall n t, get_table d n = Some t -> t_name t = n /\ wf_table t) -> wf_schema d.
Proof. intros S H. split; [exact S|]. intros n t Ht. apply H, In_mget; assumption. Qed.

(** ** Operations keep well-formedness and respect sameness *)
Definition wf_column (c : AColumn) : Prop := forall v, c_default c = Some v -> ~ sqlval_nan v.
Definition wf_op (op : Operation) : Prop :=
  match op with
  | AddTable t | AddTableIfNotExists t => wf_table t
  | AddColumn _ c | ChangeColumn _ _ c => wf_column c
  | _ => True
  end.
Lemma replace_col_In cols c x : In x (replace_col cols c) -> x = c \/ In x cols.
Proof.
  induction cols as [|d r IH]; cbn; [intuition|].
  destruct (String.eqb (c_name d) (c_name c)); cbn; intuition.
Qed.
Lemma replace_column_wf t c : wf_table t -> wf_column c -> wf_table (replace_column t c).
Proof.
  intros [ND V] Wc. split; cbn.
  - rewrite replace_col_names. destruct (kmem (c_name c) _) eqn:E; [exact ND|].
    apply NoDup_app_iff. split; [exact ND|]. split; [repeat constructor; auto|].
    apply kmem_not_In in E. intros x Hx [<-|[]]. contradiction.
  - intros x v Hx. apply replace_col_In in Hx as [->|Hx]; [apply Wc|eauto].
Qed.
Lemma remove_column_wf t n : wf_table t -> wf_table (remove_column t n).
Proof.
  intros [ND V]. split; cbn.
  - rewrite remove_names. apply NoDup_filter, ND.
  - intros x v Hx. apply filter_In in Hx as [Hx _]. eauto.
Qed.
Lemma op_on_table_wf op t : wf_op op -> wf_table t -> wf_table (op_on_table op t).
Proof.
  intros Wop Wt. destruct op; cbn in *; auto using replace_column_wf, remove_column_wf.
Qed.
Lemma op_on_table_same op t u : wf_op op -> wf_table t -> wf_table u ->
  same_table t u -> same_table (op_on_table op t) (op_on_table op u).
Proof.
  intros Wop Wt Wu S.
  apply (same_table_lookup t u Wt Wu) in S as [E L].
  apply same_table_lookup; [apply op_on_table_wf; assumption..|].
  rewrite !op_on_table_name. split; [exact E|]. intros n.
  destruct op; cbn [op_on_table replace_column remove_column t_cols]; try apply L.
  - rewrite !col_by_name_replace. destruct (String.eqb _ _); [|apply L]. cbn. apply same_column_refl, Wop.
  - rewrite !col_by_name_remove. destruct (String.eqb _ _); [exact I|apply L].
  - rewrite !col_by_name_replace. destruct (String.eqb _ _); [|apply L]. cbn. apply same_column_refl, Wop.
Qed.

Lemma transform_table_op d op : msorted (a_tables d) -> op_col_table op = None ->
  msorted (a_tables (transform_with d op)) /\
  forall m, get_table (transform_with d op) m =
    match op with
    | AddTable t | AddTableIfNotExists t => if keqb m (t_name t) then Some t else get_table d m
    | RemoveTable n => if keqb m n then None else get_table d m
    | _ => get_table d m
    end.
Proof.
  intros S H. destruct op; cbn in H; try congruence; cbn [transform_with]; try (split; [exact S|reflexivity]).
  - split; [apply mput_sorted, S|]. intros m. apply mget_mput, S.
  - split; [apply mput_sorted, S|]. intros m. apply mget_mput, S.
  - split; [apply mdel_sorted, S|]. intros m. apply mget_mdel.
Qed.

Lemma transform_wf d op : wf_op op -> wf_schema d -> wf_schema (transform_with d op).
Proof.
  intros Wop W. destruct (op_col_table op) as [n|] eqn:E.
  - destruct (transform_col_op d op n (proj1 W) E) as (_ & S & G). apply wf_intro; [exact S|].
    intros m t. rewrite G. destruct (keqb_spec m n) as [Emn|N].
    + destruct (get_table d n) as [u|] eqn:Eu; cbn; [|congruence]. intros [= <-].
      destruct (wf_get _ _ _ W Eu) as [Eu' Wu]. rewrite op_on_table_name.
      split; [congruence|]. apply op_on_table_wf; assumption.
    + apply wf_get, W.
  - destruct (transform_table_op d op (proj1 W) E) as (S & G). apply wf_intro; [exact S|].
    intros m t. rewrite G. destruct op; cbn in E; try congruence; cbn in Wop;
      try (apply wf_get, W);
      match goal with |- context [keqb m ?x] => destruct (keqb_spec m x) as [Em|] end;
      try (apply wf_get, W); try congruence.
    all: intros [= <-]; auto.
Qed.
Lemma transform_same a b op : wf_op op -> wf_schema a -> wf_schema b ->
  same_schema a b -> same_schema (transform_with a op) (transform_with b op).
Proof.
  intros Wop Wa Wb S. rewrite (same_schema_lookup a b (proj1 Wa) (proj1 Wb)) in S.
  apply same_schema_lookup; [apply transform_wf; assumption..|].
  intros m. destruct (op_col_table op) as [n|] eqn:E.
  - destruct (transform_col_op a op n (proj1 Wa) E) as (_ & _ & Ga).
    destruct (transform_col_op b op n (proj1 Wb) E) as (_ & _ & Gb). rewrite Ga, Gb.
    destruct (keqb m n); [|apply S]. specialize (S n).
    destruct (get_table a n) as [t|] eqn:Ea, (get_table b n) as [u|] eqn:Eb; cbn in *; try tauto.
    exact (op_on_table_same op t u Wop (proj2 (wf_get _ _ _ Wa Ea)) (proj2 (wf_get _ _ _ Wb Eb)) S).
  - destruct (transform_table_op a op (proj1 Wa) E) as (_ & Ga).
    destruct (transform_table_op b op (proj1 Wb) E) as (_ & Gb). rewrite Ga, Gb.
    destruct op; cbn in E; try congruence; try apply S;
      match goal with |- context [keqb m ?x] => destruct (keqb m x) end; try apply S; cbn; auto;
      apply same_table_refl, Wop.
Qed.
Lemma transform_all_same ops : forall a b, Forall wf_op ops -> wf_schema a -> wf_schema b ->
  same_schema a b -> same_schema (transform_all a ops) (transform_all b ops).
Proof.
  unfold transform_all. induction ops as [|op ops IH]; intros a b F Wa Wb S; cbn; [exact S|].
  inversion F as [|? ? Hop F']; subst. apply IH; auto using transform_wf, transform_same.
Qed.

(** ** Membership in the difference *)
Section DiffIn.
  Variables old new : ADB.
  Hypothesis Wo : wf_schema old.
  Hypothesis Wn : wf_schema new.

  Lemma has_table_keys d n : has_table d n <-> In n (mkeys (a_tables d)).
  Proof.
    unfold has_table, mkeys. rewrite in_map_iff. split.
    - intros [t H]. exists (n, t). auto.
    - intros ([m t] & <- & H). eauto.
  Qed.
  Lemma In_gt d n t : wf_schema d -> In (n, t) (a_tables d) <-> has_table d n /\ t = gt d n.
  Proof.
    intros W. rewrite has_table_keys. split.
    - intros H. pose proof (In_mget _ _ _ (proj1 W) H) as G. split; [apply mget_keys; eauto|].
      unfold gt, get_table. rewrite G. reflexivity.
    - intros [H ->]. apply mget_In. apply (gt_some d n H).
  Qed.
  Lemma table_ops_In_spec n op : In op (table_ops old new n) <->
    In op (adds (gt old n) (gt new n)) \/ In op (removes (gt old n) (gt new n)) \/ In op (changes (gt old n) (gt new n)).
  Proof. unfold table_ops. rewrite !in_app_iff. tauto. Qed.
  Lemma d_all_In op : In op (d_all old new) <->
    (exists n, has_table new n /\ ~ has_table old n /\ op = AddTable (gt new n)) \/
    (exists n, has_table old n /\ ~ has_table new n /\ op = RemoveTableConstraints (gt old n)) \/
    (exists n, has_table old n /\ ~ has_table new n /\ op = RemoveTable n) \/
    (exists n, has_table new n /\ has_table old n /\ In op (table_ops old new n)) \/
    (exists n, has_table new n /\ ~ has_table old n /\ has_ref (gt new n) = true /\ op = AddTableConstraints (gt new n)).
  Proof.
    unfold d_all. rewrite !in_app_iff. unfold d_adds, d_uncon, d_drops, d_changes, d_cons.
    rewrite !in_concat, !in_map_iff.
    apply or_iff_compat_both; [|apply or_iff_compat_both; [|apply or_iff_compat_both; [|apply or_iff_compat_both]]].
    - split; [intros (n & <- & Hn)|intros (n & H1 & H2 & ->)]; exists n; rewrite ?sdiff_In, ?has_table_keys in *; tauto.
    - split; [intros (n & <- & Hn)|intros (n & H1 & H2 & ->)]; exists n; rewrite ?sdiff_In, ?has_table_keys in *; tauto.
    - split; [intros (n & <- & Hn)|intros (n & H1 & H2 & ->)]; exists n; rewrite ?sdiff_In, ?has_table_keys in *; tauto.
    - split.
      + intros (l & Hl & Hop). apply in_map_iff in Hl as (n & <- & Hn). apply sinter_In in Hn.
        exists n. rewrite !has_table_keys. tauto.
      + intros (n & H1 & H2 & Hop). exists (table_ops old new n). split; [|exact Hop].
        apply in_map, sinter_In. rewrite <- !has_table_keys. auto.
    - split.
      + intros (l & Hl & Hop). apply in_map_iff in Hl as (n & <- & Hn). apply sdiff_In in Hn.
        unfold con_of in Hop. destruct (has_ref (gt new n)) eqn:E; [|destruct Hop]. destruct Hop as [<-|[]].
        exists n. rewrite !has_table_keys. tauto.
      + intros (n & H1 & H2 & E & ->). exists (con_of new n). split; [|unfold con_of; rewrite E; left; reflexivity].
        apply in_map, sdiff_In. rewrite <- !has_table_keys. auto.
  Qed.
End DiffIn.

Section DiffSpec.
  Variables old new : ADB.
  Hypothesis Wo : wf_schema old.
  Hypothesis Wn : wf_schema new.

  Lemma has_column_names t n : has_column t n <-> In n (map c_name (t_cols t)).
  Proof.
    unfold has_column. rewrite in_map_iff. split; intros (c & ? & ?); eauto.
  Qed.
  Lemma adds_In t u op : In op (adds t u) <->
    exists n, In n (map c_name (t_cols u)) /\ ~ In n (map c_name (t_cols t)) /\ op = AddColumn (t_name u) (get_col (t_cols u) n).
  Proof.
    unfold adds. rewrite in_map_iff. split.
    - intros (n & <- & Hn). rewrite sdiff_In, !set_of_list_In in Hn. exists n; tauto.
    - intros (n & H1 & H2 & ->). exists n. rewrite sdiff_In, !set_of_list_In. tauto.
  Qed.
  Lemma removes_In t u op : In op (removes t u) <->
    exists n, In n (map c_name (t_cols t)) /\ ~ In n (map c_name (t_cols u)) /\ op = RemoveColumn (t_name t) n.
  Proof.
    unfold removes. rewrite in_map_iff. split.
    - intros (n & <- & Hn). rewrite sdiff_In, !set_of_list_In in Hn. exists n; tauto.
    - intros (n & H1 & H2 & ->). exists n. rewrite sdiff_In, !set_of_list_In. tauto.
  Qed.
  Lemma In_get_col cols c : NoDup (map c_name cols) -> In c cols <-> In (c_name c) (map c_name cols) /\ get_col cols (c_name c) = c.
  Proof.
    intros ND. split.
    - intros H. split; [apply in_map, H|]. unfold get_col. rewrite (In_col_by_name _ _ ND H). reflexivity.
    - intros [H E]. pose proof (get_col_some _ _ H) as G. rewrite E in G. apply col_by_name_In in G. tauto.
  Qed.

  Lemma has_ref_iff t : has_ref t = true <-> exists c, In c (t_cols t) /\ c_ref c <> None.
  Proof.
    unfold has_ref. rewrite existsb_exists. split; intros (c & Hc & H); exists c; (split; [exact Hc|]);
      destruct (c_ref c); congruence.
  Qed.
  Lemma gt_name d n : wf_schema d -> has_table d n -> t_name (gt d n) = n.
  Proof. intros W H. apply has_table_keys in H. apply (gt_wf d n W H). Qed.
  Lemma gt_table d n : wf_schema d -> has_table d n -> wf_table (gt d n).
  Proof. intros W H. apply has_table_keys in H. apply (gt_wf d n W H). Qed.
  Lemma In_has d n t : In (n, t) (a_tables d) -> has_table d n.
  Proof. intros H. exists t. exact H. Qed.

  Lemma diff_In op : In op (d_all old new) <-> op_justified old new op.
  Proof.
    rewrite d_all_In. split.
    - intros [H|[H|[H|[H|H]]]].
      + destruct H as (n & HN & HO & ->). cbn. rewrite (gt_name new n) by assumption.
        split; [apply In_gt; auto|exact HO].
      + destruct H as (n & HO & HN & ->). cbn. rewrite (gt_name old n) by assumption.
        split; [apply In_gt; auto|exact HN].
      + destruct H as (n & HO & HN & ->). cbn. auto.
      + destruct H as (n & HN & HO & Hop). apply table_ops_In_spec in Hop.
        assert (HtO : In (n, gt old n) (a_tables old)) by (apply In_gt; auto).
        assert (HtN : In (n, gt new n) (a_tables new)) by (apply In_gt; auto).
        destruct Hop as [Hop|[Hop|Hop]].
        * apply adds_In in Hop as (m & H1 & H2 & ->). cbn. rewrite (gt_name new n) by assumption.
          exists (gt old n), (gt new n). rewrite get_col_name by exact H1. rewrite has_column_names.
          split; [exact HtO|]. split; [exact HtN|]. split; [|exact H2].
          apply get_col_some, col_by_name_In in H1. tauto.
        * apply removes_In in Hop as (m & H1 & H2 & ->). cbn. rewrite (gt_name old n) by assumption.
          exists (gt old n), (gt new n). rewrite !has_column_names. auto.
        * apply changes_In in Hop as (m & H1 & H2 & -> & E). cbn. rewrite (gt_name new n) by assumption.
          rewrite set_of_list_In in H1, H2.
          exists (gt old n), (gt new n). split; [exact HtO|]. split; [exact HtN|].
          rewrite !get_col_name by assumption.
          split; [apply get_col_some, col_by_name_In in H2; tauto|].
          split; [apply get_col_some, col_by_name_In in H1; tauto|]. split; [reflexivity|].
          intros S. apply same_column_sym, acol_eqb_iff in S. congruence.
      + destruct H as (n & HN & HO & R & ->). cbn. rewrite (gt_name new n) by assumption.
        split; [apply In_gt; auto|]. split; [exact HO|]. apply has_ref_iff, R.
    - destruct op as [t|t|t|n|n c|n c|n oc nc|t]; cbn [op_justified].
      + intros [H1 H2]. left. exists (t_name t). apply In_gt in H1 as [H1 E]; [|exact Wn]. rewrite <- E. auto.
      + intros [].
      + intros [H1 H2]. right; left. exists (t_name t). apply In_gt in H1 as [H1 E]; [|exact Wo]. rewrite <- E. auto.
      + intros [H1 H2]. right; right; left. eauto.
      + intros (t & u & Ht & Hu & Hc & Hn). right; right; right; left. exists n.
        apply In_gt in Ht as [Ht ->]; [|exact Wo]. apply In_gt in Hu as [Hu ->]; [|exact Wn].
        split; [exact Hu|]. split; [exact Ht|]. apply table_ops_In_spec. left. apply adds_In.
        apply In_get_col in Hc as [Hc E]; [|apply (gt_table new n); assumption].
        rewrite has_column_names in Hn. exists (c_name c). rewrite E, (gt_name new n) by assumption. auto.
      + intros (t & u & Ht & Hu & Hc & Hn). right; right; right; left. exists n.
        apply In_gt in Ht as [Ht ->]; [|exact Wo]. apply In_gt in Hu as [Hu ->]; [|exact Wn].
        split; [exact Hu|]. split; [exact Ht|]. apply table_ops_In_spec. right; left. apply removes_In.
        exists c. rewrite <- !has_column_names, (gt_name old n) by assumption. auto.
      + intros (t & u & Ht & Hu & Hoc & Hnc & En & NS). right; right; right; left. exists n.
        apply In_gt in Ht as [Ht ->]; [|exact Wo]. apply In_gt in Hu as [Hu ->]; [|exact Wn].
        split; [exact Hu|]. split; [exact Ht|]. apply table_ops_In_spec. right; right. apply changes_In.
        apply In_get_col in Hoc as [Hoc Eo]; [|apply (gt_table old n); assumption].
        apply In_get_col in Hnc as [Hnc Ec]; [|apply (gt_table new n); assumption].
        exists (c_name nc). rewrite !set_of_list_In, Ec, (gt_name new n) by assumption.
        rewrite En in Hoc, Eo. rewrite Eo. split; [exact Hnc|]. split; [exact Hoc|]. split; [reflexivity|].
        destruct (acol_eqb nc oc) eqn:E; [|reflexivity]. apply acol_eqb_iff in E.
        exfalso. apply NS, same_column_sym, E.
      + intros (H1 & H2 & H3). do 4 right. exists (t_name t). apply In_gt in H1 as [H1 E]; [|exact Wn].
        rewrite <- E. apply has_ref_iff in H3. auto.
  Qed.

  Lemma table_ops_nodup n : has_table old n -> has_table new n -> NoDup (table_ops old new n).
  Proof.
    intros HO HN. unfold table_ops. apply NoDup_app_iff. split; [|split; [apply NoDup_app_iff; split; [|split]|]].
    - apply NoDup_map_in; [apply sorted_NoDup, filter_sorted, set_of_list_sorted|].
      intros x y Hx Hy [= E]. apply sdiff_In in Hx as [Hx _], Hy as [Hy _]. rewrite set_of_list_In in Hx, Hy.
      apply (f_equal c_name) in E. rewrite !get_col_name in E by assumption. exact E.
    - apply NoDup_map_in; [apply sorted_NoDup, filter_sorted, set_of_list_sorted|].
      intros x y Hx Hy [= E]. exact E.
    - unfold changes. apply NoDup_concat_map; [apply sorted_NoDup, filter_sorted, set_of_list_sorted| |].
      + intros x Hx. unfold change_of. destruct (acol_eqb _ _); repeat constructor; auto.
      + intros x y b Hx Hy Hb Hb'. apply sinter_In in Hx as [Hx _], Hy as [Hy _]. rewrite set_of_list_In in Hx, Hy.
        unfold change_of in Hb, Hb'.
        destruct (acol_eqb _ _); [destruct Hb|]. destruct (acol_eqb _ _) in Hb'; [destruct Hb'|].
        destruct Hb as [<-|[]], Hb' as [E|[]]. injection E as _ E.
        apply (f_equal c_name) in E. rewrite !get_col_name in E by assumption. auto.
    - intros op H1 H2. apply removes_In in H1 as (? & _ & _ & ->). apply changes_In in H2 as (? & _ & _ & E & _). congruence.
    - intros op H1 H2. apply adds_In in H1 as (? & _ & _ & ->). apply in_app_iff in H2 as [H2|H2].
      + apply removes_In in H2 as (? & _ & _ & E). congruence.
      + apply changes_In in H2 as (? & _ & _ & E & _). congruence.
  Qed.

  Let N := mkeys (a_tables new).
  Let O := mkeys (a_tables old).
  Lemma sdiff_has a b n : In n (sdiff (mkeys (a_tables a)) (mkeys (a_tables b))) -> has_table a n /\ ~ has_table b n.
  Proof. rewrite sdiff_In, !has_table_keys. auto. Qed.
  Lemma stage_adds op : In op (d_adds old new) -> op_stage op = 0.
  Proof. unfold d_adds. rewrite in_map_iff. intros (n & <- & _). reflexivity. Qed.
  Lemma stage_uncon op : In op (d_uncon old new) -> op_stage op = 1.
  Proof. unfold d_uncon. rewrite in_map_iff. intros (n & <- & _). reflexivity. Qed.
  Lemma stage_drops op : In op (d_drops old new) -> op_stage op = 2.
  Proof. unfold d_drops. rewrite in_map_iff. intros (n & <- & _). reflexivity. Qed.
  Lemma stage_table_ops n op : In op (table_ops old new n) -> op_stage op = 3.
  Proof.
    intros H. apply table_ops_In_spec in H as [H|[H|H]].
    - apply adds_In in H as (? & _ & _ & ->). reflexivity.
    - apply removes_In in H as (? & _ & _ & ->). reflexivity.
    - apply changes_In in H as (? & _ & _ & -> & _). reflexivity.
  Qed.
  Lemma stage_changes op : In op (d_changes old new) -> op_stage op = 3.
  Proof.
    unfold d_changes. rewrite in_concat. intros (l & Hl & Hop). apply in_map_iff in Hl as (n & <- & _).
    eapply stage_table_ops, Hop.
  Qed.
  Lemma stage_cons op : In op (d_cons old new) -> op_stage op = 4.
  Proof.
    unfold d_cons. rewrite in_concat. intros (l & Hl & Hop). apply in_map_iff in Hl as (n & <- & _).
    unfold con_of in Hop. destruct (has_ref _); [|destruct Hop]. destruct Hop as [<-|[]]. reflexivity.
  Qed.
  Lemma stage_col op x : col_stage op = Some x -> op_stage op = 3.
  Proof. destruct op; cbn; congruence. Qed.
  Lemma before_stage a b : op_stage a < op_stage b -> op_before a b.
  Proof.
    intros H. split; [lia|]. intros n i j Ha Hb. apply stage_col in Ha, Hb. lia.
  Qed.
  Lemma before_nocol a b : op_stage a = op_stage b -> op_stage a <> 3 -> op_before a b.
  Proof.
    intros H H'. split; [lia|]. intros n i j Ha Hb. apply stage_col in Ha. lia.
  Qed.
  Lemma before_col op1 op2 n i m j : col_stage op1 = Some (n, i) -> col_stage op2 = Some (m, j) -> (n = m -> i <= j) -> op_before op1 op2.
  Proof.
    intros H1 H2 H. split; [rewrite (stage_col _ _ H1), (stage_col _ _ H2); lia|].
    intros k a b E1 E2. rewrite H1 in E1. rewrite H2 in E2. injection E1 as <- <-. injection E2 as <- <-. apply H; reflexivity.
  Qed.

  Lemma table_ops_col n op : has_table old n -> has_table new n -> In op (table_ops old new n) ->
    exists i, col_stage op = Some (n, i).
  Proof.
    intros HO HN H. apply table_ops_In_spec in H as [H|[H|H]].
    - apply adds_In in H as (? & _ & _ & ->). cbn. rewrite (gt_name new n) by assumption. eauto.
    - apply removes_In in H as (? & _ & _ & ->). cbn. rewrite (gt_name old n) by assumption. eauto.
    - apply changes_In in H as (? & _ & _ & -> & _). cbn. rewrite (gt_name new n) by assumption. eauto.
  Qed.

  Lemma table_ops_sorted n : has_table old n -> has_table new n -> StronglySorted op_before (table_ops old new n).
  Proof.
    intros HO HN. unfold table_ops.
    assert (EN : t_name (gt new n) = n) by (apply gt_name; assumption).
    assert (EO : t_name (gt old n) = n) by (apply gt_name; assumption).
    assert (A : forall op, In op (adds (gt old n) (gt new n)) -> col_stage op = Some (n, 0)).
    { intros op H. apply adds_In in H as (? & _ & _ & ->). cbn. congruence. }
    assert (R : forall op, In op (removes (gt old n) (gt new n)) -> col_stage op = Some (n, 1)).
    { intros op H. apply removes_In in H as (? & _ & _ & ->). cbn. congruence. }
    assert (C : forall op, In op (changes (gt old n) (gt new n)) -> col_stage op = Some (n, 2)).
    { intros op H. apply changes_In in H as (? & _ & _ & -> & _). cbn. congruence. }
    apply SS_app; [|apply SS_app|].
    - apply SS_all. intros x y Hx Hy. eapply before_col; [apply A, Hx|apply A, Hy|lia].
    - apply SS_all. intros x y Hx Hy. eapply before_col; [apply R, Hx|apply R, Hy|lia].
    - apply SS_all. intros x y Hx Hy. eapply before_col; [apply C, Hx|apply C, Hy|lia].
    - intros x y Hx Hy. eapply before_col; [apply R, Hx|apply C, Hy|lia].
    - intros x y Hx Hy. apply in_app_iff in Hy as [Hy|Hy].
      + eapply before_col; [apply A, Hx|apply R, Hy|lia].
      + eapply before_col; [apply A, Hx|apply C, Hy|lia].
  Qed.

  Lemma inter_has n : In n (sinter N O) -> has_table old n /\ has_table new n.
  Proof. rewrite sinter_In, !has_table_keys. unfold N, O. tauto. Qed.

  Lemma diff_sorted : StronglySorted op_before (d_all old new).
  Proof.
    unfold d_all.
    assert (Sc : StronglySorted op_before (d_changes old new)).
    { unfold d_changes. fold N O. assert (ND : NoDup (sinter N O)) by (apply sorted_NoDup, filter_sorted, (proj1 Wn)).
      assert (H : forall n, In n (sinter N O) -> has_table old n /\ has_table new n) by apply inter_has.
      induction ND as [|n l Hn ND IH]; cbn; [constructor|].
      apply SS_app; [apply table_ops_sorted; apply H; left; reflexivity|apply IH; auto with datatypes|].
      intros x y Hx Hy. apply in_concat in Hy as (l' & Hl' & Hy). apply in_map_iff in Hl' as (m & <- & Hm).
      destruct (table_ops_col n x) as [i Ei]; [apply H; left; reflexivity..|exact Hx|].
      destruct (table_ops_col m y) as [j Ej]; [apply H; right; assumption..|exact Hy|].
      eapply before_col; [exact Ei|exact Ej|]. intros ->. contradiction. }
    repeat apply SS_app; try exact Sc.
    - apply SS_all. intros x y Hx Hy. apply stage_adds in Hx, Hy. apply before_nocol; lia.
    - apply SS_all. intros x y Hx Hy. apply stage_uncon in Hx, Hy. apply before_nocol; lia.
    - apply SS_all. intros x y Hx Hy. apply stage_drops in Hx, Hy. apply before_nocol; lia.
    - apply SS_all. intros x y Hx Hy. apply stage_cons in Hx, Hy. apply before_nocol; lia.
    - intros x y Hx Hy. apply stage_changes in Hx. apply stage_cons in Hy. apply before_stage; lia.
    - intros x y Hx Hy. apply stage_drops in Hx. apply in_app_iff in Hy as [Hy|Hy];
        [apply stage_changes in Hy|apply stage_cons in Hy]; apply before_stage; lia.
    - intros x y Hx Hy. apply stage_uncon in Hx. rewrite !in_app_iff in Hy. destruct Hy as [Hy|[Hy|Hy]];
        [apply stage_drops in Hy|apply stage_changes in Hy|apply stage_cons in Hy]; apply before_stage; lia.
    - intros x y Hx Hy. apply stage_adds in Hx. rewrite !in_app_iff in Hy. destruct Hy as [Hy|[Hy|[Hy|Hy]]];
        [apply stage_uncon in Hy|apply stage_drops in Hy|apply stage_changes in Hy|apply stage_cons in Hy]; apply before_stage; lia.
  Qed.

  Lemma diff_nodup : NoDup (d_all old new).
  Proof.
    assert (SN : NoDup (sdiff N O)) by (apply sorted_NoDup, filter_sorted, (proj1 Wn)).
    assert (SO : NoDup (sdiff O N)) by (apply sorted_NoDup, filter_sorted, (proj1 Wo)).
    assert (SI : NoDup (sinter N O)) by (apply sorted_NoDup, filter_sorted, (proj1 Wn)).
    assert (D : forall (l1 l2 : list Operation) k, NoDup l1 -> NoDup l2 ->
       (forall x, In x l1 -> op_stage x = k) -> (forall x, In x l2 -> k < op_stage x) -> NoDup (l1 ++ l2)).
    { intros l1 l2 k H1 H2 H3 H4. apply NoDup_app_iff. split; [exact H1|]. split; [exact H2|].
      intros x Hx Hy. specialize (H3 x Hx). specialize (H4 x Hy). lia. }
    unfold d_all. eapply D; [| |apply stage_adds|]; [|eapply D; [| |apply stage_uncon|]; [|eapply D; [| |apply stage_drops|];
       [|eapply D; [| |apply stage_changes|]| ]| ]| ].
    - apply NoDup_map_in; [exact SN|]. intros x y Hx Hy [= E].
      apply sdiff_has in Hx as [Hx _], Hy as [Hy _]. apply (f_equal t_name) in E. rewrite !gt_name in E by assumption. exact E.
    - apply NoDup_map_in; [exact SO|]. intros x y Hx Hy [= E].
      apply sdiff_has in Hx as [Hx _], Hy as [Hy _]. apply (f_equal t_name) in E. rewrite !gt_name in E by assumption. exact E.
    - apply NoDup_map_in; [exact SO|]. intros x y Hx Hy [= E]. exact E.
    - unfold d_changes. apply NoDup_concat_map; [exact SI| |].
      + intros n Hn. apply inter_has in Hn as [? ?]. apply table_ops_nodup; assumption.
      + intros x y b Hx Hy Hb Hb'. apply inter_has in Hx as [? ?], Hy as [? ?].
        destruct (table_ops_col x b) as [i Ei]; [assumption..|]. destruct (table_ops_col y b) as [j Ej]; [assumption..|].
        congruence.
    - unfold d_cons. apply NoDup_concat_map; [exact SN| |].
      + intros n Hn. unfold con_of. destruct (has_ref _); repeat constructor; auto.
      + intros x y b Hx Hy Hb Hb'. apply sdiff_has in Hx as [Hx _], Hy as [Hy _].
        unfold con_of in Hb, Hb'. destruct (has_ref (gt new x)); [|destruct Hb].
        destruct (has_ref (gt new y)); [|destruct Hb'].
        destruct Hb as [<-|[]], Hb' as [E|[]]. injection E as E. apply (f_equal t_name) in E.
        rewrite !gt_name in E by assumption. auto.
    - intros x Hx. apply stage_cons in Hx. lia.
    - intros x Hx. rewrite !in_app_iff in Hx. destruct Hx as [Hx|Hx]; [apply stage_changes in Hx|apply stage_cons in Hx]; lia.
    - intros x Hx. rewrite !in_app_iff in Hx. destruct Hx as [Hx|[Hx|Hx]];
        [apply stage_drops in Hx|apply stage_changes in Hx|apply stage_cons in Hx]; lia.
    - intros x Hx. rewrite !in_app_iff in Hx. destruct Hx as [Hx|[Hx|[Hx|Hx]]];
        [apply stage_uncon in Hx|apply stage_drops in Hx|apply stage_changes in Hx|apply stage_cons in Hx]; lia.
  Qed.

  Lemma diff_wf_ops : Forall wf_op (d_all old new).
  Proof.
    apply Forall_forall. intros op H. apply diff_In in H. destruct op; cbn in *; auto.
    - destruct H as [H _]. apply (proj2 Wn) in H. tauto.
    - tauto.
    - destruct H as (t' & u & _ & Hu & Hc & _). intros v Hv. apply (proj2 Wn) in Hu as [_ [_ Hu]]. eauto.
    - destruct H as (t' & u & _ & Hu & _ & Hc & _). intros v Hv. apply (proj2 Wn) in Hu as [_ [_ Hu]]. eauto.
  Qed.
End DiffSpec.

Lemma diff_empty_iff old new : wf_schema old -> wf_schema new ->
  d_all old new = [] <-> same_schema old new.
Proof.
  intros Wo Wn. split.
  - intros E. destruct (diff_reaches old new Wo Wn) as (S & _ & _). rewrite E in S. exact S.
  - intros S. destruct (d_all old new) as [|op l] eqn:E; [reflexivity|].
    assert (J : op_justified old new op) by (apply diff_In; [assumption..|rewrite E; left; reflexivity]).
    exfalso. destruct S as [S1 S2].
    assert (HO : forall n, has_table old n -> has_table new n).
    { intros n [t Ht]. destruct (S1 n t Ht) as (u & Hu & _). exists u; exact Hu. }
    assert (HN : forall n, has_table new n -> has_table old n).
    { intros n [t Ht]. destruct (S2 n t Ht) as (u & Hu & _). exists u; exact Hu. }
    assert (Same : forall n t u, In (n, t) (a_tables old) -> In (n, u) (a_tables new) -> same_table t u).
    { intros n t u Ht Hu. destruct (S1 n t Ht) as (u' & Hu' & St).
      apply (In_mget _ _ _ (proj1 Wn)) in Hu, Hu'. congruence. }
    destruct op as [t|t|t|n|n c|n c|n oc nc|t]; cbn in J.
    + destruct J as [J1 J2]. apply J2, HN, (In_has _ _ _ J1).
    + exact J.
    + destruct J as [J1 J2]. apply J2, HO, (In_has _ _ _ J1).
    + destruct J as [J1 J2]. auto.
    + destruct J as (t & u & Ht & Hu & Hc & Hn). destruct (Same n t u Ht Hu) as (_ & _ & H2).
      destruct (H2 c Hc) as (c' & Hc' & SC). apply Hn. exists c'. split; [exact Hc'|apply SC].
    + destruct J as (t & u & Ht & Hu & (c' & Hc & Ec) & Hn). destruct (Same n t u Ht Hu) as (_ & H1 & _).
      destruct (H1 c' Hc) as (e & He & SC). apply Hn. exists e. split; [exact He|]. rewrite <- (sc_name _ _ SC). exact Ec.
    + destruct J as (t & u & Ht & Hu & Hoc & Hnc & En & NS).
      pose proof (Same n t u Ht Hu) as ST.
      apply (proj2 Wo) in Ht as [_ Wt]. apply (proj2 Wn) in Hu as [_ Wu].
      apply (same_table_lookup t u Wt Wu) in ST as [_ L]. specialize (L (c_name nc)).
      rewrite (In_col_by_name _ _ (proj1 Wu) Hnc) in L. rewrite <- En, (In_col_by_name _ _ (proj1 Wt) Hoc) in L.
      exact (NS L).
    + destruct J as (J1 & J2 & _). apply J2, HN, (In_has _ _ _ J1).
Qed.

Lemma diff_down old new : wf_schema old -> wf_schema new ->
  same_schema (transform_all (transform_all old (d_all old new)) (d_all new old)) old.
Proof.
  intros Wo Wn. destruct (diff_reaches old new Wo Wn) as (S1 & W1 & _).
  destruct (diff_reaches new old Wn Wo) as (S2 & W2 & _).
  eapply same_schema_trans; [|exact S2].
  apply transform_all_same; [apply diff_wf_ops; assumption|assumption..].
Qed.
