(** Proofs about the schema edited in memory. *)
From Verif Require Import Base SqlVal Adb AdbSpec AdbProofs ResolveSpec ResolveProofs Chain Store FsStore FsProofs
  Codegen Maint Current CurrentSpec.

Lemma type_kept_refl a : type_kept a a. Proof. now left. Qed.
Lemma type_kept_trans a b c : type_kept a b -> type_kept b c -> type_kept a c.
Proof.
  intros [->|(k & i & -> & ->)]; [auto|]. intros [->|(k' & j & E & _)]; [right; eauto|discriminate].
Qed.
Lemma ref_kept_refl a : ref_kept a a. Proof. now left. Qed.
Lemma ref_kept_trans a b c : ref_kept a b -> ref_kept b c -> ref_kept a c.
Proof.
  intros [->|(k & i & -> & ->)]; [auto|]. intros [->|(k' & j & E & _)]; [right; eauto|discriminate].
Qed.
Lemma column_kept_refl c : column_kept c c.
Proof. split; try reflexivity; [apply type_kept_refl|apply ref_kept_refl]. Qed.
Lemma column_kept_trans a b c : column_kept a b -> column_kept b c -> column_kept a c.
Proof.
  intros [N T A B C D E F] [N' T' A' B' C' D' E' F'].
  split; try congruence; [eapply type_kept_trans; eassumption|eapply ref_kept_trans; eassumption].
Qed.
Lemma columns_kept_refl l : Forall2 column_kept l l.
Proof. induction l; constructor; auto using column_kept_refl. Qed.
Lemma columns_kept_trans a b : Forall2 column_kept a b -> forall c, Forall2 column_kept b c -> Forall2 column_kept a c.
Proof.
  induction 1 as [|x y a b H _ IH]; intros c H2; inversion H2; subst; constructor; [eapply column_kept_trans; eassumption|auto].
Qed.
Lemma table_kept_refl a : table_kept a a.
Proof. destruct a; cbn; auto using columns_kept_refl. Qed.
Lemma table_kept_trans a b c : table_kept a b -> table_kept b c -> table_kept a c.
Proof.
  destruct a, b, c; cbn; try tauto. intros [E H] [E' H']. split; [congruence|]. eapply columns_kept_trans; eassumption.
Qed.
Lemma entry_kept_refl a : type_entry_kept a a.
Proof. destruct a; cbn; auto using type_kept_refl. Qed.
Lemma entry_kept_trans a b c : type_entry_kept a b -> type_entry_kept b c -> type_entry_kept a c.
Proof. destruct a, b, c; cbn; try tauto. apply type_kept_trans. Qed.

Lemma resolved_type_kept d a b : type_resolved d a b -> type_kept a b.
Proof. destruct a; cbn; [intros ->; now left|intros ->; now left|]. intros [(i & -> & _)|[-> _]]; [right; eauto|now left]. Qed.
Lemma resolved_ref_kept d a b : ref_resolved d a b -> ref_kept a b.
Proof.
  destruct a as [[l|x]|]; cbn; [intros ->; now left| |intros ->; now left].
  intros (k & n & -> & _ & [(t & c & _ & _ & ->)|[-> _]]); [right; eauto|now left].
Qed.
Lemma resolved_columns_kept d a b : Forall2 (col_resolved d) a b -> Forall2 column_kept a b.
Proof.
  induction 1 as [|x y a b [N T A B C D E F] _ IH]; constructor; [|exact IH].
  split; try assumption; [eapply resolved_type_kept; eassumption|eapply resolved_ref_kept; eassumption].
Qed.
Lemma resolved_maps d d' : schema_resolved d d' -> msorted (a_tables d) -> msorted (a_types d) ->
  msorted (a_tables d') /\ msorted (a_types d') /\
  (forall n, table_kept (mget n (a_tables d)) (mget n (a_tables d'))) /\
  (forall k, type_entry_kept (mget k (a_types d)) (mget k (a_types d'))).
Proof.
  intros [HT HY] S1 S2.
  assert (KT : mkeys (a_tables d') = mkeys (a_tables d)).
  { clear S1. unfold mkeys. induction HT as [|p q a b [E _] _ IH]; cbn; [reflexivity|]. now rewrite E, IH. }
  assert (KY : mkeys (a_types d') = mkeys (a_types d)).
  { clear S2. unfold mkeys. induction HY as [|p q a b [E _] _ IH]; cbn; [reflexivity|]. now rewrite E, IH. }
  split; [unfold msorted; now rewrite KT|]. split; [unfold msorted; now rewrite KY|]. split.
  - intros n. clear S1 KT. induction HT as [|[x t] [y u] a b (E & N & C) _ IH]; cbn; [exact I|]. cbn in E, N, C. subst y.
    destruct (keqb n x); [|exact IH]. cbn. split; [exact N|]. eapply resolved_columns_kept, C.
  - intros n. clear S2 KY. induction HY as [|[x t] [y u] a b (E & C) _ IH]; cbn; [exact I|]. cbn in E, C. subst y.
    destruct (keqb n x); [|exact IH]. cbn. eapply resolved_type_kept, C.
Qed.
Lemma resolve_keeps d d' r : msorted (a_tables d) -> msorted (a_types d) -> resolve_types d = Ok (d', r) ->
  msorted (a_tables d') /\ msorted (a_types d') /\
  (forall n, table_kept (mget n (a_tables d)) (mget n (a_tables d'))) /\
  (forall k, type_entry_kept (mget k (a_types d)) (mget k (a_types d'))).
Proof.
  intros S1 S2 E. apply resolved_maps; auto. exact (resolve_frame d d' r S1 S2 E).
Qed.

Lemma table_after1_kept n e a b : table_kept a b -> table_kept (table_after1 n a e) (table_after1 n b e).
Proof.
  intros H. destruct e; cbn; try exact H; try exact I.
  - destruct (String.eqb _ _); [apply table_kept_refl|exact H].
  - destruct (String.eqb _ _); [exact I|exact H].
Qed.
Lemma table_after_kept n h : forall a b, table_kept a b -> table_kept (table_after n h a) (table_after n h b).
Proof. induction h as [|e h IH]; cbn; intros a b H; [exact H|]. now apply IH, table_after1_kept. Qed.
Lemma type_after1_kept k e a b : type_entry_kept a b -> type_entry_kept (type_after1 k a e) (type_after1 k b e).
Proof.
  intros H. destruct e; cbn; try exact H; try exact I.
  destruct (keqb _ _); [apply entry_kept_refl|exact H].
Qed.
Lemma type_after_kept k h : forall a b, type_entry_kept a b -> type_entry_kept (type_after k h a) (type_after k h b).
Proof. induction h as [|e h IH]; cbn; intros a b H; [exact H|]. now apply IH, type_after1_kept. Qed.

(** What one edit does to the schema before it is resolved. *)
Lemma replace_table_after d t : msorted (a_tables d) ->
  forall n, mget n (a_tables (replace_table d t)) = table_after n [TableIs t] (mget n (a_tables d)).
Proof.
  intros S n. cbn [replace_table a_tables table_after fold_left table_after1]. rewrite mget_mput by exact S.
  destruct (String.eqb_spec (t_name t) n) as [->|N]; [now rewrite keqb_refl|].
  now rewrite (proj2 (keqb_neq n (t_name t)) (fun E => N (eq_sym E))).
Qed.
Lemma add_type_after d k t : msorted (a_types d) ->
  forall n, mget n (a_types (add_type d k t)) = type_after n [TypeNamed k t] (mget n (a_types d)).
Proof.
  intros S n. cbn [add_type a_types type_after fold_left type_after1]. rewrite mget_mput by exact S.
  destruct (keqb_spec k n) as [->|N]; [now rewrite keqb_refl|].
  now rewrite (proj2 (keqb_neq n k) (fun E => N (eq_sym E))).
Qed.
Lemma remove_table_after d t :
  forall n, mget n (a_tables (remove_table d t)) = table_after n [TableGone t] (mget n (a_tables d)).
Proof.
  intros n. cbn [remove_table a_tables table_after fold_left table_after1]. rewrite mget_mdel.
  destruct (String.eqb_spec t n) as [->|N]; [now rewrite keqb_refl|].
  now rewrite (proj2 (keqb_neq n t) (fun E => N (eq_sym E))).
Qed.

Definition mem_sorted (m : MemMigration) : Prop :=
  msorted (a_tables (mm_db m)) /\ msorted (a_types (mm_db m)) /\ msorted (mm_up m) /\ msorted (mm_down m).
Lemma edit_does m e m' r : mem_sorted m -> mem_edit m e = Ok (m', r) ->
  mem_sorted m' /\ mm_name m' = mm_name m /\ mm_from m' = from_after1 (mm_from m) e /\
  (forall n, table_kept (table_after n (edit_events e) (mget n (a_tables (mm_db m)))) (mget n (a_tables (mm_db m')))) /\
  (forall k, type_entry_kept (type_after k (edit_events e) (mget k (a_types (mm_db m)))) (mget k (a_types (mm_db m')))).
Proof.
  intros (S1 & S2 & S3 & S4) E. destruct e; cbn [mem_edit] in E.
  - unfold mm_resolved in E. destruct (resolve_types (replace_table (mm_db m) t)) as [[d x]| |] eqn:ER; cbn in E; try discriminate.
    injection E as <- <-. assert (S1' : msorted (a_tables (replace_table (mm_db m) t))) by now apply mput_sorted.
    destruct (resolve_keeps _ _ _ S1' S2 ER) as (A & B & C & D).
    split; [repeat split; assumption|]. split; [reflexivity|]. split; [reflexivity|]. split.
    + intros n. cbn [mm_db mm_with_db edit_events]. rewrite <- (replace_table_after _ _ S1). apply C.
    + intros k. apply (D k).
  - injection E as <- <-. split; [repeat split; try assumption; now apply mdel_sorted|]. split; [reflexivity|]. split; [reflexivity|]. split.
    + intros k. cbn [mm_db mm_with_db edit_events mm_delete_table]. rewrite <- remove_table_after. apply table_kept_refl.
    + intros k. apply entry_kept_refl.
  - injection E as <- <-. split; [repeat split; try assumption; now apply mput_sorted|]. split; [reflexivity|]. split; [reflexivity|]. split.
    + intros n. apply table_kept_refl.
    + intros k. apply entry_kept_refl.
  - injection E as <- <-. split; [repeat split; try assumption; now apply mdel_sorted|]. split; [reflexivity|]. split; [reflexivity|]. split.
    + intros n. apply table_kept_refl.
    + intros k. apply entry_kept_refl.
  - unfold mm_resolved in E. destruct (resolve_types (add_type (mm_db m) k t)) as [[d x]| |] eqn:ER; cbn in E; try discriminate.
    injection E as <- <-. assert (S2' : msorted (a_types (add_type (mm_db m) k t))) by now apply mput_sorted.
    destruct (resolve_keeps (add_type (mm_db m) k t) d x S1 S2' ER) as (A & B & C & D).
    split; [repeat split; assumption|]. split; [reflexivity|]. split; [reflexivity|]. split.
    + intros n. apply (C n).
    + intros k'. cbn [mm_db mm_with_db edit_events]. rewrite <- (add_type_after _ _ _ S2). apply D.
  - injection E as <- <-. split; [repeat split; assumption|]. split; [reflexivity|]. split; [reflexivity|]. split.
    + intros n. apply table_kept_refl.
    + intros k. apply entry_kept_refl.
Qed.
Lemma edit_scripts m e m' r b o : mem_sorted m -> mem_edit m e = Ok (m', r) ->
  mget b (mm_up m) = option_map fst o /\ mget b (mm_down m) = option_map snd o ->
  mget b (mm_up m') = option_map fst (scripts_after1 b o e) /\ mget b (mm_down m') = option_map snd (scripts_after1 b o e).
Proof.
  intros (_ & _ & S3 & S4) E H. destruct e; cbn [mem_edit] in E.
  1,5: unfold mm_resolved in E;
    match type of E with context [resolve_types ?x] => destruct (resolve_types x); cbn in E; try discriminate end;
    injection E as <- _; exact H.
  - injection E as <- _. exact H.
  - injection E as <- _. cbn [mm_add_sql mm_up mm_down scripts_after1]. rewrite !mget_mput by assumption.
    destruct (String.eqb_spec b0 b) as [->|N]; [now rewrite keqb_refl|].
    now rewrite (proj2 (keqb_neq b b0) (fun E => N (eq_sym E))).
  - injection E as <- _. cbn [mm_remove_sql mm_up mm_down scripts_after1]. rewrite !mget_mdel.
    destruct (String.eqb_spec b0 b) as [->|N]; [now rewrite keqb_refl|].
    now rewrite (proj2 (keqb_neq b b0) (fun E => N (eq_sym E))).
  - injection E as <- _. exact H.
Qed.
Lemma edits_do l : forall m m', mem_sorted m -> mem_edits m l = Ok m' ->
  mem_sorted m' /\ mm_name m' = mm_name m /\ mm_from m' = fold_left from_after1 l (mm_from m) /\
  (forall n, table_kept (table_after n (flat_map edit_events l) (mget n (a_tables (mm_db m)))) (mget n (a_tables (mm_db m')))) /\
  (forall k, type_entry_kept (type_after k (flat_map edit_events l) (mget k (a_types (mm_db m)))) (mget k (a_types (mm_db m')))) /\
  (forall b o, mget b (mm_up m) = option_map fst o /\ mget b (mm_down m) = option_map snd o ->
     mget b (mm_up m') = option_map fst (fold_left (scripts_after1 b) l o) /\
     mget b (mm_down m') = option_map snd (fold_left (scripts_after1 b) l o)).
Proof.
  induction l as [|e l IH]; intros m m' S E; cbn [mem_edits flat_map fold_left] in *.
  - injection E as <-. split; [exact S|]. split; [reflexivity|]. split; [reflexivity|].
    split; [intros; apply table_kept_refl|]. split; [intros; apply entry_kept_refl|]. auto.
  - destruct (mem_edit m e) as [[m1 r]| |] eqn:E1; cbn [obind fst] in E; try discriminate.
    destruct (edit_does m e m1 r S E1) as (S1 & N1 & F1 & T1 & Y1).
    destruct (IH m1 m' S1 E) as (S2 & N2 & F2 & T2 & Y2 & Q2).
    split; [exact S2|]. split; [congruence|]. split; [now rewrite F2, F1|]. split; [|split].
    + intros n. unfold table_after at 1. rewrite fold_left_app. eapply table_kept_trans; [|apply T2]. apply table_after_kept, T1.
    + intros k. unfold type_after at 1. rewrite fold_left_app. eapply entry_kept_trans; [|apply Y2]. apply type_after_kept, Y1.
    + intros b o H. apply Q2. exact (edit_scripts m e m1 r b o S E1 H).
Qed.
