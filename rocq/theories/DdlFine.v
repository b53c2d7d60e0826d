(** The operations between two schemas that can be declared can be written. *)
From Verif Require Import Base SqlVal Sql Adb AdbSpec AdbProofs QuerySpec Literal LiteralSpec DdlSpec.

Lemma fine_replace cols c : Forall column_fine cols -> column_fine c -> Forall column_fine (replace_col cols c).
Proof. intros F Hc. apply Forall_forall. intros x Hx. apply replace_col_In in Hx as [->|Hx]; [exact Hc|]. revert x Hx. now apply Forall_forall. Qed.
Lemma replace_col_names_In cols c n : In n (map c_name (replace_col cols c)) <-> In n (map c_name cols) \/ n = c_name c.
Proof.
  rewrite replace_col_names. destruct (kmem (c_name c) (map c_name cols)) eqn:E.
  - apply kmem_In in E. intuition congruence.
  - rewrite in_app_iff. cbn. intuition congruence.
Qed.
Lemma remove_names_In cols m n : In n (map c_name (filter (fun c => negb (String.eqb (c_name c) m)) cols)) <-> In n (map c_name cols) /\ n <> m.
Proof.
  rewrite remove_names, filter_In. destruct (String.eqb_spec n m); cbn; intuition congruence.
Qed.
Lemma transform_cols cur n tb op : get_table cur n = Some tb -> op_col_table op = Some n -> msorted (a_tables cur) ->
  get_table (transform_with cur op) n = Some (op_on_table op tb) /\ forall m, m <> n -> get_table (transform_with cur op) m = get_table cur m.
Proof.
  intros G O S. destruct (transform_col_op cur op n S O) as (_ & _ & H). split.
  - rewrite H, keqb_refl, G. reflexivity.
  - intros m N. rewrite H. destruct (keqb_spec m n); [contradiction|reflexivity].
Qed.

Section Fine.
Variables old new : ADB.
Hypothesis Wo : wf_schema old.
Hypothesis Wn : wf_schema new.
Hypothesis Fo : schema_fine old.
Hypothesis Fn : schema_fine new.
Hypothesis Da : forall n c, added_column old new n c -> default_fine c.

Record fine_inv (cur : ADB) (rest : list Operation) : Prop := {
  fi_sorted : msorted (a_tables cur);
  fi_tables : forall n tb, get_table cur n = Some tb -> t_name tb = n /\ identifier n = true /\ Forall column_fine (t_cols tb);
  fi_kept : forall n t u, In (n, t) (a_tables old) -> In (n, u) (a_tables new) -> exists tb, get_table cur n = Some tb
    /\ (forall c, In c (t_cols u) -> In (c_name c) (map c_name (t_cols tb)) \/ exists c', c_name c' = c_name c /\ In (AddColumn n c') rest)
    /\ (forall cn, In (RemoveColumn n cn) rest -> In cn (map c_name (t_cols tb))) }.

Lemma one_table (d : ADB) n t u : wf_schema d -> In (n, t) (a_tables d) -> In (n, u) (a_tables d) -> t = u.
Proof. intros [S _] A B. apply (In_mget _ _ _ S) in A, B. congruence. Qed.

Lemma fine_step cur op rest : fine_inv cur (op :: rest) -> StronglySorted op_before (op :: rest) -> NoDup (op :: rest) ->
  op_justified old new op -> op_fine cur op /\ fine_inv (transform_with cur op) rest.
Proof.
  intros [S T K] Srt ND J.
  assert (Later : forall n m u, op_col_table op = None -> (forall t, op <> RemoveTable t \/ t <> n) ->
            In (n, m) (a_tables old) -> In (n, u) (a_tables new) -> exists tb, get_table (transform_with cur op) n = Some tb
    /\ (forall c, In c (t_cols u) -> In (c_name c) (map c_name (t_cols tb)) \/ exists c', c_name c' = c_name c /\ In (AddColumn n c') rest)
    /\ (forall cn, In (RemoveColumn n cn) rest -> In cn (map c_name (t_cols tb)))).
  { intros n m u O R A B. destruct (K n m u A B) as (tb & G & K1 & K2). exists tb.
    destruct (transform_table_op cur op S O) as (_ & Gt). split; [|split].
    - rewrite Gt. destruct op; try discriminate O; try exact G.
      + cbn in J. destruct J as [_ J]. destruct (keqb_spec n (t_name t)) as [->|]; [|exact G]. exfalso. apply J. exists m. exact A.
      + destruct J.
      + destruct (keqb_spec n n0) as [->|]; [|exact G]. destruct (R n0); congruence.
    - intros c Hc. destruct (K1 c Hc) as [?|(c' & E & [->|Hin])]; [now left|discriminate O|right; eauto].
    - intros cn Hcn. apply K2. now right. }
  destruct op as [t|t|t|n|n c|n cn|n oc nc|t].
  - (* AddTable *) cbn in J. destruct J as [J1 J2]. pose proof (Fn _ _ J1) as F. split; [exact F|].
    destruct (transform_table_op cur (AddTable t) S eq_refl) as (S' & Gt). constructor; [exact S'| |].
    + intros m tb. rewrite Gt. destruct (keqb_spec m (t_name t)) as [->|]; [|apply T].
      intros [= <-]. split; [reflexivity|]. split; [apply F|apply F].
    + intros m a b A B. apply (Later m a b); auto. intros x. left. discriminate.
  - destruct J.
  - cbn in J. split; [exact I|]. constructor; [exact S|exact T|]. intros m a b A B. apply (Later m a b); auto. intros x. left. discriminate.
  - (* RemoveTable *) destruct J as [[t0 J1] J2]. split.
    { cbn. destruct Wo as [_ W]. destruct (W _ _ J1) as [<- _]. apply (Fo _ _ J1). }
    destruct (transform_table_op cur (RemoveTable n) S eq_refl) as (S' & Gt). constructor; [exact S'| |].
    + intros m tb. rewrite Gt. destruct (keqb_spec m n); [discriminate|apply T].
    + intros m a b A B. apply (Later m a b); auto. intros x. destruct (string_dec x m) as [->|]; [|now right]. left.
      intros [= ->]. apply J2. now exists b.
  - (* AddColumn *) pose proof J as (t & u & A & B & Hc & Nc). pose proof (Fn _ _ B) as (_ & _ & Fu).
    assert (Fc : column_fine c) by (revert c Hc Nc J ND Srt K Later; intros c Hc _ _ _ _ _ _; revert c Hc; now apply Forall_forall).
    destruct (K n t u A B) as (tb & G & K1 & K2). destruct (T _ _ G) as (Et & Id & Ft). split.
    { split; [exact Id|]. split; [exact Fc|]. apply (Da n c). exact J. }
    destruct (transform_cols cur n tb (AddColumn n c) G eq_refl S) as [G1 G2].
    constructor; [apply (transform_col_op cur (AddColumn n c) n S eq_refl)| |].
    + intros m tb'. destruct (string_dec m n) as [->|N]; [|rewrite G2 by exact N; apply T].
      rewrite G1. intros [= <-]. split; [exact Et|]. split; [exact Id|]. now apply fine_replace.
    + intros m a b A' B'. destruct (string_dec m n) as [->|N].
      * pose proof (one_table _ _ _ _ Wo A' A); pose proof (one_table _ _ _ _ Wn B' B); subst a b. exists (replace_column tb c). split; [exact G1|]. cbn. split.
        -- intros x Hx. rewrite replace_col_names_In. destruct (K1 x Hx) as [?|(c' & E & [[= ->]|Hin])]; [auto|auto|]. right. eauto.
        -- intros cn Hcn. rewrite replace_col_names_In. left. apply K2. now right.
      * destruct (K m a b A' B') as (tb' & G' & K1' & K2'). exists tb'. rewrite G2 by exact N. split; [exact G'|]. split.
        -- intros x Hx. destruct (K1' x Hx) as [?|(c' & E & [[= E1 E2]|Hin])]; [auto|congruence|]. right. eauto.
        -- intros cn Hcn. apply K2'. now right.
  - (* RemoveColumn *) pose proof J as (t & u & A & B & (oc & Hoc & <-) & Nc).
    destruct (K n t u A B) as (tb & G & K1 & K2). destruct (T _ _ G) as (Et & Id & Ft).
    assert (Hin : In (c_name oc) (map c_name (t_cols tb))) by (apply K2; now left).
    assert (All : forall c, In c (t_cols u) -> In (c_name c) (map c_name (t_cols tb))).
    { intros c Hc. destruct (K1 c Hc) as [?|(c' & E & [Heq|Hl])]; [assumption|discriminate|]. exfalso.
      destruct (StronglySorted_inv Srt) as [_ HF]. rewrite Forall_forall in HF. destruct (HF _ Hl) as [_ HH].
      specialize (HH n 1 0 eq_refl eq_refl). lia. }
    assert (Fin : table_fine (remove_column tb (c_name oc))).
    { split; [cbn; rewrite Et; exact Id|]. split.
      - cbn. pose proof (Fn _ _ B) as (_ & Ne & _). destruct (t_cols u) as [|c l] eqn:E; [congruence|].
        assert (H : In (c_name c) (map c_name (filter (fun x => negb (String.eqb (c_name x) (c_name oc))) (t_cols tb)))).
        { rewrite remove_names_In. split; [apply All; now left|]. intros X. apply Nc. exists c. rewrite E. split; [now left|exact X]. }
        intros X. rewrite X in H. destruct H.
      - cbn. apply Forall_forall. intros x Hx. apply filter_In in Hx as [Hx _]. revert x Hx. now apply Forall_forall. }
    split.
    { cbn. split; [exact Id|]. split.
      - pose proof (Fo _ _ A) as (_ & _ & Ff). rewrite Forall_forall in Ff. apply (Ff _ Hoc).
      - exists tb. split; [exact G|]. split; [exact Et|]. split; [exact Hin|exact Fin]. }
    destruct (transform_cols cur n tb (RemoveColumn n (c_name oc)) G eq_refl S) as [G1 G2].
    constructor; [apply (transform_col_op cur (RemoveColumn n (c_name oc)) n S eq_refl)| |].
    + intros m tb'. destruct (string_dec m n) as [->|N]; [|rewrite G2 by exact N; apply T].
      rewrite G1. intros [= <-]. split; [exact Et|]. split; [exact Id|]. apply Fin.
    + intros m a b A' B'. destruct (string_dec m n) as [->|N].
      * pose proof (one_table _ _ _ _ Wo A' A); pose proof (one_table _ _ _ _ Wn B' B); subst a b. exists (remove_column tb (c_name oc)). split; [exact G1|]. cbn. split.
        -- intros x Hx. left. rewrite remove_names_In. split; [apply All, Hx|]. intros X. apply Nc. now exists x.
        -- intros cn Hcn. rewrite remove_names_In. split; [apply K2; now right|]. intros ->.
           apply NoDup_cons_iff in ND. tauto.
      * destruct (K m a b A' B') as (tb' & G' & K1' & K2'). exists tb'. rewrite G2 by exact N. split; [exact G'|]. split.
        -- intros x Hx. destruct (K1' x Hx) as [?|(c' & E & [Heq|Hl])]; [auto|discriminate|]. right. eauto.
        -- intros cn Hcn. apply K2'. now right.
  - (* ChangeColumn *) pose proof J as (t & u & A & B & Ho & Hc & En & Ns). pose proof (Fn _ _ B) as (_ & _ & Fu).
    assert (Fc : column_fine nc) by (rewrite Forall_forall in Fu; apply Fu; exact Hc).
    destruct (K n t u A B) as (tb & G & K1 & K2). destruct (T _ _ G) as (Et & Id & Ft).
    assert (Fr : Forall column_fine (replace_col (t_cols tb) nc)) by now apply fine_replace.
    split.
    { exists tb. split; [exact G|]. split; [exact Et|]. split; [cbn; rewrite Et; exact Id|]. split; [|exact Fr].
      cbn. intros X. assert (H : In (c_name nc) (map c_name (replace_col (t_cols tb) nc))) by (apply replace_col_names_In; now right).
      rewrite X in H. destruct H. }
    destruct (transform_cols cur n tb (ChangeColumn n oc nc) G eq_refl S) as [G1 G2].
    constructor; [apply (transform_col_op cur (ChangeColumn n oc nc) n S eq_refl)| |].
    + intros m tb'. destruct (string_dec m n) as [->|N]; [|rewrite G2 by exact N; apply T].
      rewrite G1. intros [= <-]. split; [exact Et|]. split; [exact Id|exact Fr].
    + intros m a b A' B'. destruct (string_dec m n) as [->|N].
      * pose proof (one_table _ _ _ _ Wo A' A); pose proof (one_table _ _ _ _ Wn B' B); subst a b. exists (replace_column tb nc). split; [exact G1|]. cbn. split.
        -- intros x Hx. rewrite replace_col_names_In. destruct (K1 x Hx) as [?|(c' & E & [Heq|Hl])]; [auto|discriminate|]. right. eauto.
        -- intros cn Hcn. rewrite replace_col_names_In. left. apply K2. now right.
      * destruct (K m a b A' B') as (tb' & G' & K1' & K2'). exists tb'. rewrite G2 by exact N. split; [exact G'|]. split.
        -- intros x Hx. destruct (K1' x Hx) as [?|(c' & E & [Heq|Hl])]; [auto|discriminate|]. right. eauto.
        -- intros cn Hcn. apply K2'. now right.
  - split; [exact I|]. constructor; [exact S|exact T|]. intros m a b A B. apply (Later m a b); auto. intros x. left. discriminate.
Qed.

Lemma fine_all rest : forall cur, fine_inv cur rest -> StronglySorted op_before rest -> NoDup rest ->
  (forall op, In op rest -> op_justified old new op) -> ops_fine cur rest.
Proof.
  induction rest as [|op rest IH]; intros cur Inv Srt ND J; [exact I|].
  destruct (fine_step cur op rest Inv Srt ND (J op (or_introl eq_refl))) as [F Inv']. split; [exact F|].
  apply IH; [exact Inv'|now inversion Srt|now inversion ND|]. intros o Ho. apply J. now right.
Qed.

Theorem diff_ops_fine ops : diff_out old new = Ok ops -> ops_fine old ops.
Proof.
  intros E. rewrite diff_eq in E. injection E as <-.
  apply fine_all; [|apply diff_sorted; assumption|apply diff_nodup; assumption|intros op; apply diff_In; assumption].
  constructor; [apply Wo| |].
  - intros n t G. destruct (wf_get _ _ _ Wo G) as [En _]. pose proof (Fo _ _ (mget_In _ _ _ G)) as F.
    split; [exact En|]. rewrite <- En. split; apply F.
  - intros n t u A B. exists t. split; [apply In_mget; [apply Wo|exact A]|]. split.
    + intros c Hc. destruct (in_dec string_dec (c_name c) (map c_name (t_cols t))) as [Hin|Nin]; [now left|right].
      exists c. split; [reflexivity|]. apply diff_In; [assumption..|]. exists t, u. repeat split; auto.
      intros X. apply Nin. apply has_column_names. exact X.
    + intros cn H. apply diff_In in H; [|assumption..]. destruct H as (t' & u' & A' & B' & H & _).
      rewrite (one_table _ _ _ _ Wo A A'). apply has_column_names. exact H.
Qed.
End Fine.
