(** Properties C36 and C37: many-to-many fields. *)
From Coq Require Import Permutation.
From Verif Require Import Base SqlVal Adb AdbSpec AdbProofs Sql SqlStmt Query QuerySpec Stmt StmtSpec StmtSem Conn ConnProofs Many ObjSpec ManyProofs
  Props_Query.

(** * C36 *)

Lemma without_app E a b l : without E (a ++ b) l = without E a l ++ without E b l.
Proof. unfold without. apply filter_app. Qed.
Lemma without_none E l removed : (forall v, In v l -> among E v removed = false) -> without E l removed = l.
Proof.
  unfold without. induction l as [|x l IH]; intros H; [reflexivity|]. cbn [filter]. rewrite (H x (or_introl eq_refl)). cbn [negb].
  f_equal. apply IH. intros v Hv. apply H. now right.
Qed.
Lemma filter_perm {A} (p : A -> bool) l l' : Permutation l l' -> Permutation (filter p l) (filter p l').
Proof.
  induction 1; cbn; auto.
  - destruct (p x); auto.
  - destruct (p x), (p y); auto. constructor.
  - eapply Permutation_trans; eauto.
Qed.
Lemma without_perm E l l' removed : Permutation l l' -> Permutation (without E l removed) (without E l' removed).
Proof. apply filter_perm. Qed.

(** After any adds and removes and a save, the owner is related to what it was
    related to, plus the added, minus the removed; nothing is pending; no other
    table changes; and no other owner changes that was not related to a removed
    object (for those see C36_other_owner_refuted). *)
Theorem C36_save_partial : forall T (R : related T) d kw b E gen calls m m1 m2 w w' owner,
  quotes_enough kw d -> engine_ok E -> identifier (m_table m) = true ->
  relation_table (w_db w) (m_table m) -> m_owner m = Some owner -> same E owner owner = true ->
  m_new m = [] -> m_removed m = [] ->
  run_calls R calls m = (Ok tt, m1) -> room b (length (flat_map bound (m_removed m1))) ->
  many_save d kw b E gen m1 w = (Ok tt, m2, w') ->
  exists ka kr, Forall2 (fun x k => rel_key R x = Ok k) (added calls) ka
    /\ Forall2 (fun x k => rel_key R x = Ok k) (taken calls) kr
    /\ Permutation (partners E (w_db w') (m_table m) owner)
                   (without E (partners E (w_db w) (m_table m) owner ++ ka) kr)
    /\ (forall o, same E owner o = false ->
          (forall v, In v (partners E (w_db w) (m_table m) o) -> among E v kr = false) ->
          partners E (w_db w') (m_table m) o = partners E (w_db w) (m_table m) o)
    /\ (forall n, n <> m_table m -> w_db w' n = w_db w n)
    /\ m_new m2 = [] /\ m_removed m2 = [] /\ m_owner m2 = m_owner m /\ m_table m2 = m_table m.
Proof.
  intros T R d kw b E gen calls m m1 m2 w w' owner KW EO Ht HR Ho Hs Hn Hr Hc Hroom Hsave.
  destruct (calls_spec R calls m m1 Hc) as (C1 & C2 & (ka & kr & Ka & Kr & C3 & C4) & _).
  rewrite Hn in C3. rewrite Hr in C4. cbn [app] in C3, C4.
  exists ka, kr. split; [exact Ka|]. split; [exact Kr|].
  rewrite <- C1 in *. rewrite <- C2 in Ho |- *.
  pose proof (save_spec d kw b E gen KW EO m1 w owner Ho Ht HR Hroom) as Hsp. rewrite Hsave in Hsp.
  destruct Hsp as [-> HD]. rewrite C3, C4 in HD. split; [|split; [|split]].
  - rewrite HD, partners_deleted, partners_add, Hs, !without_app. apply Permutation_app_head.
    apply without_perm, Permutation_sym, Permutation_rev.
  - intros o Hd Hv. rewrite HD, partners_deleted, partners_add, Hd, app_nil_r. now apply without_none.
  - intros n N. rewrite HD, deleted_other, add_links_other by assumption. reflexivity.
  - repeat split; reflexivity.
Qed.
Print Assumptions C36_save_partial.

(** When a save fails the pending changes stay, except the addition being stored
    when it failed, or all removals if it failed there (see
    C36_failed_save_refuted); the additions before it are stored. *)
Theorem C36_failed_save_partial : forall T d kw b E gen (m m' : many T) w w' owner e,
  quotes_enough kw d -> engine_ok E -> identifier (m_table m) = true ->
  relation_table (w_db w) (m_table m) -> m_owner m = Some owner -> same E owner owner = true ->
  room b (length (flat_map bound (m_removed m))) ->
  many_save d kw b E gen m w = (Err e, m', w') ->
  exists lost stored, m_new m = m_new m' ++ lost ++ stored /\ length lost <= 1
    /\ ((m_removed m' = m_removed m /\ length lost = 1
         /\ exists maybe, (maybe = [] \/ maybe = lost)
            /\ partners E (w_db w') (m_table m) owner = partners E (w_db w) (m_table m) owner ++ rev stored ++ maybe)
        \/ (m_removed m' = [] /\ m_removed m <> [] /\ m_new m' = [] /\ lost = []
            /\ (partners E (w_db w') (m_table m) owner = partners E (w_db w) (m_table m) owner ++ rev stored
                \/ partners E (w_db w') (m_table m) owner
                   = without E (partners E (w_db w) (m_table m) owner ++ rev stored) (m_removed m)))).
Proof.
  intros T d kw b E gen m m' w w' owner e KW EO Ht HR Ho Hs Hroom Hsave.
  pose proof (save_spec d kw b E gen KW EO m w owner Ho Ht HR Hroom) as Hsp. rewrite Hsave in Hsp.
  destruct Hsp as [(stored & v & H1 & H2 & HD)|(H1 & H2 & HD)].
  - exists [v], (rev stored). split; [exact H1|]. split; [cbn; lia|]. left.
    split; [rewrite H2; reflexivity|]. split; [reflexivity|]. rewrite rev_involutive.
    destruct HD as [HD|HD]; rewrite HD, partners_add, Hs.
    + exists []. split; [now left|]. now rewrite app_nil_r.
    + exists [v]. split; [now right|]. reflexivity.
  - exists [], (m_new m). rewrite H2. cbn [m_new m_removed set_pending app]. split; [reflexivity|]. split; [cbn; lia|]. right.
    split; [reflexivity|]. split; [exact H1|]. split; [reflexivity|]. split; [reflexivity|].
    destruct HD as [HD|HD]; rewrite HD.
    + left. now rewrite partners_add, Hs.
    + right. now rewrite partners_deleted, partners_add, Hs.
Qed.
Print Assumptions C36_failed_save_partial.

(** A relation that belongs to no saved object cannot be saved or deleted, and an
    object without a key cannot be added. *)
Theorem C36_not_initialized : forall T d kw b E gen (m : many T) w, m_owner m = None ->
  many_save d kw b E gen m w = (Err NotInitialized, m, w)
  /\ many_delete d kw b E gen m w = (Err NotInitialized, m, w).
Proof. intros T d kw b E gen m w H. unfold many_save, many_delete. now rewrite H. Qed.
Print Assumptions C36_not_initialized.
Theorem C36_add_unsaved : forall T (R : related T) m x, rel_valid R x = false ->
  many_add R m x = (Err ValueNotSaved, m).
Proof. intros T R m x H. unfold many_add. now rewrite H. Qed.
Print Assumptions C36_add_unsaved.

(** delete removes the owner's relations and forgets pending changes; if it fails
    they are still pending. *)
Theorem C36_delete : forall T d kw b E gen (m m' : many T) w w' owner r,
  quotes_enough kw d -> engine_ok E -> identifier (m_table m) = true -> reserved d "owner" = false ->
  relation_table (w_db w) (m_table m) -> m_owner m = Some owner -> owner <> VNull ->
  many_delete d kw b E gen m w = (r, m', w') ->
  match r with
  | Ok _ => partners E (w_db w') (m_table m) owner = []
      /\ (forall o, (forall row, In row (w_db w (m_table m)) ->
                       has_key E "owner" owner row = true -> has_key E "owner" o row = false) ->
            partners E (w_db w') (m_table m) o = partners E (w_db w) (m_table m) o)
      /\ (forall n, n <> m_table m -> w_db w' n = w_db w n)
      /\ m_new m' = [] /\ m_removed m' = [] /\ m_all m' = Some []
  | Err _ => m' = m
  | Panic => False
  end.
Proof.
  intros T d kw b E gen m m' w w' owner r KW EO Ht Hres HR Ho NN H.
  rewrite (many_delete_spec d kw b E gen KW EO m w owner Ho NN Ht Hres HR) in H.
  destruct (next_fate w); inversion H; subst; auto. cbn [w_db after]. split; [apply partners_delete_self|].
  split; [intros o Hd; now apply partners_delete_other|]. split; [|repeat split; reflexivity].
  intros n N. unfold emptied. now rewrite with_table_other.
Qed.
Print Assumptions C36_delete.

(** set replaces the owner's relations. *)
Theorem C36_set : forall T (R : related T) d kw b E gen (m m' : many T) l w w' owner,
  quotes_enough kw d -> engine_ok E -> identifier (m_table m) = true -> reserved d "owner" = false ->
  relation_table (w_db w) (m_table m) -> m_owner m = Some owner -> same E owner owner = true ->
  many_set R d kw b E gen m l w = (Ok tt, m', w') ->
  (exists ks, Forall2 (fun x k => rel_key R x = Ok k) l ks
     /\ Permutation (partners E (w_db w') (m_table m) owner) ks)
  /\ (forall o, same E owner o = false ->
        (forall row, In row (w_db w (m_table m)) -> has_key E "owner" owner row = true -> has_key E "owner" o row = false) ->
        partners E (w_db w') (m_table m) o = partners E (w_db w) (m_table m) o)
  /\ (forall n, n <> m_table m -> w_db w' n = w_db w n)
  /\ m_new m' = [] /\ m_removed m' = [] /\ m_all m' = Some l.
Proof.
  intros T R d kw b E gen m m' l w w' owner KW EO Ht Hres HR Ho Hs H.
  assert (NN : owner <> VNull).
  { intros ->. unfold same, compare3 in Hs. rewrite (null_l E EO) in Hs. discriminate. }
  unfold many_set in H. rewrite (many_delete_spec d kw b E gen KW EO m w owner Ho NN Ht Hres HR) in H.
  destruct (next_fate w); try discriminate.
  set (m0 := set_all (set_pending m [] []) (Some [])) in *. set (w0 := after w (emptied E (w_db w) (m_table m) owner)) in *.
  rewrite (add_all_calls R l m0) in H.
  destruct (run_calls R (map Add l) m0) as [[[]|e|] m1] eqn:Ec; try discriminate.
  destruct (calls_spec R _ _ _ Ec) as (C1 & C2 & (ka & kr & Ka & Kr & C3 & C4) & _).
  rewrite added_map in Ka. rewrite taken_map in Kr. inversion Kr; subst kr. cbn [m0 m_new m_removed set_all set_pending app] in C3, C4.
  assert (HR0 : relation_table (w_db w0) (m_table m1)) by (rewrite C1; apply relation_filter; exact HR).
  assert (Hroom : room b (length (flat_map bound (m_removed m1)))) by (rewrite C4; destruct b as [|[|]]; cbn; auto; lia).
  pose proof (save_spec d kw b E gen KW EO m1 w0 owner) as Hsp. rewrite C2 in Hsp. specialize (Hsp Ho).
  rewrite C1 in Hsp, HR0. specialize (Hsp Ht HR0 Hroom). cbn [m_table m0 set_all set_pending] in Hsp.
  destruct (many_save d kw b E gen m1 w0) as [[[u|e|] m2] w2]; try discriminate.
  destruct Hsp as [-> HD]. inversion H; subst m' w2. clear H. rewrite C3, C4 in HD. cbn [deleted] in HD. rewrite HD. split; [|split; [|split]].
  - exists ka. split; [exact Ka|]. rewrite partners_add, Hs. cbn [w_db w0 after]. unfold emptied. rewrite partners_delete_self.
    apply Permutation_sym, Permutation_rev.
  - intros o Hd Hrow. rewrite partners_add, Hd, app_nil_r. cbn [w_db w0 after]. now apply partners_delete_other.
  - intros n N. rewrite add_links_other by assumption. cbn [w_db w0 after]. unfold emptied. now rewrite with_table_other.
  - repeat split; reflexivity.
Qed.
Print Assumptions C36_set.

(** Every history: for any calls on the fields of any number of owners, all
    successful, each owner is related to what the calls say, as long as no save
    removes what another owner is related to. *)
Section History.
Context {T : Type}.
Variables (R : related T) (key : T -> SqlVal) (d : dialect) (kw : string -> bool) (b : backend) (E : engine)
  (gen : db -> string -> list string -> row) (t : string) (own : nat -> SqlVal).

(** The handles and the database are in the abstract state. *)
Definition represents (h : nat -> many T) (w : world) (s : rel_state) : Prop :=
  relation_table (w_db w) t
  /\ forall i, m_owner (h i) = Some (own i) /\ m_table (h i) = t
       /\ Permutation (partners E (w_db w) t (own i)) (rs_related s i)
       /\ m_new (h i) = rs_add s i /\ m_removed (h i) = rs_remove s i.

Lemma upd_same {A} (f : nat -> A) i a : upd f i a i = a.
Proof. unfold upd. now rewrite Nat.eqb_refl. Qed.
Lemma upd_other {A} (f : nat -> A) i a j : j <> i -> upd f i a j = f j.
Proof. unfold upd. destruct (Nat.eqb_spec j i); congruence. Qed.
Lemma among_perm v l l' : Permutation l l' -> among E v l = among E v l'.
Proof.
  intros H. unfold among. apply Bool.eq_true_iff_eq. rewrite !existsb_exists.
  split; intros (x & Hx & Hs); exists x; split; auto; [eapply Permutation_in; eauto|eapply Permutation_in; [apply Permutation_sym; eauto|auto]].
Qed.

Lemma history_step o h w h' w' s :
  quotes_enough kw d -> engine_ok E -> identifier t = true -> reserved d "owner" = false ->
  (forall x, rel_key R x = Ok (key x)) ->
  (forall i, same E (own i) (own i) = true) ->
  (forall x i j, same E x (own i) = true -> same E x (own j) = true -> i = j) ->
  represents h w s -> op_apart E s o -> op_fits b s o ->
  many_do R d kw b E gen o h w = (Ok tt, h', w') -> represents h' w' (rel_step E key s o).
Proof.
  intros KW EO Ht Hres Hkey Hrefl Hsep [HR Hh] Hap Hroom H.
  assert (NN : forall i, own i <> VNull).
  { intros i Hi. specialize (Hrefl i). rewrite Hi in Hrefl. unfold same, compare3 in Hrefl. rewrite (null_l E EO) in Hrefl. discriminate. }
  assert (Hdiff : forall i j, j <> i -> same E (own i) (own j) = false).
  { intros i j Hj. destruct (same E (own i) (own j)) eqn:Es; [|reflexivity]. exfalso. apply Hj. symmetry. eapply Hsep; eauto. }
  assert (Hrows : forall D i j, j <> i -> forall row, In row (D t) ->
             has_key E "owner" (own i) row = true -> has_key E "owner" (own j) row = false).
  { intros D i j Hj row _ H1. destruct (has_key E "owner" (own j) row) eqn:H2; [|reflexivity]. exfalso. apply Hj. symmetry.
    unfold has_key in *. destruct (field "owner" row) as [x|]; [|discriminate]. apply (Hsep x i j); unfold same; assumption. }
  destruct o as [i x|i x|i|i|i l]; cbn [many_do rel_step op_apart op_fits] in *.
  - unfold many_add in H. destruct (rel_valid R x); [|discriminate]. rewrite Hkey in H. inversion H; subst. clear H.
    split; [exact HR|]. intros j. destruct (Hh j) as (H1 & H2 & H3 & H4 & H5). unfold upd. cbn beta. cbn [rs_related rs_add rs_remove]. destruct (Nat.eqb_spec j i) as [->|Hj]; [|auto].
    cbn. repeat split; auto. now rewrite H4.
  - unfold many_remove in H. rewrite Hkey in H. inversion H; subst. clear H.
    split; [exact HR|]. intros j. destruct (Hh j) as (H1 & H2 & H3 & H4 & H5). unfold upd. cbn beta. cbn [rs_related rs_add rs_remove]. destruct (Nat.eqb_spec j i) as [->|Hj]; [|auto].
    cbn. repeat split; auto. now rewrite H5.
  - destruct (Hh i) as (Ho & Htb & Hp & Hn & Hrm).
    pose proof (save_spec d kw b E gen KW EO (h i) w (own i) Ho) as Hsp. rewrite Htb, Hrm, Hn in Hsp.
    specialize (Hsp Ht HR Hroom).
    destruct (many_save d kw b E gen (h i) w) as [[r m2] w2]. inversion H; subst r h' w2. clear H. destruct Hsp as [-> HD].
    split; [rewrite HD; apply relation_deleted; now apply relation_add|]. intros j. rewrite HD, partners_deleted, partners_add.
    destruct (Hh j) as (Ho' & Htb' & Hp' & Hn' & Hrm').
    unfold upd. cbn beta. cbn [rs_related rs_add rs_remove]. destruct (Nat.eqb_spec j i) as [->|Hj].
    + cbn. rewrite Hrefl. repeat split; auto. apply without_perm. apply Permutation_app; [exact Hp|]. apply Permutation_sym, Permutation_rev.
    + rewrite Hdiff by assumption. rewrite app_nil_r. repeat split; auto. rewrite without_none; [exact Hp'|].
      intros v Hv. apply (Hap j v Hj). eapply Permutation_in; eauto.
  - destruct (Hh i) as (Ho & Htb & Hp & Hn & Hrm).
    destruct (many_delete d kw b E gen (h i) w) as [[r m2] w2] eqn:Ed. inversion H; subst r h' w2. clear H.
    rewrite (many_delete_spec d kw b E gen KW EO (h i) w (own i) Ho) in Ed by (rewrite ?Htb; auto).
    destruct (next_fate w); inversion Ed; subst m2 w'. clear Ed. rewrite Htb. cbn [w_db after].
    split; [now apply relation_filter|]. intros j. destruct (Hh j) as (Ho' & Htb' & Hp' & Hn' & Hrm').
    unfold upd. cbn beta. cbn [rs_related rs_add rs_remove]. destruct (Nat.eqb_spec j i) as [->|Hj].
    + cbn [m_owner m_table m_new m_removed set_all set_pending]. unfold emptied. cbn [w_db after]. rewrite partners_delete_self. repeat split; auto.
    + unfold emptied. cbn [w_db after]. rewrite partners_delete_other by (apply Hrows; assumption). repeat split; auto.
  - destruct (Hh i) as (Ho & Htb & Hp & Hn & Hrm).
    assert (HR' : relation_table (w_db w) (m_table (h i))) by now rewrite Htb.
    assert (Ht' : identifier (m_table (h i)) = true) by now rewrite Htb.
    destruct (many_set R d kw b E gen (h i) l w) as [[r m2] w2] eqn:Es. inversion H; subst r h' w2. clear H.
    destruct (C36_set T R d kw b E gen (h i) m2 l w w' (own i) KW EO Ht' Hres HR' Ho (Hrefl i) Es)
      as ((ks & Hks & Hpk) & Hoth & _ & Hn2 & Hr2 & _).
    assert (Ek : ks = map key l).
    { clear - Hks Hkey. induction Hks as [|x k l ks Hx _ IH]; [reflexivity|]. cbn. rewrite Hkey in Hx. inversion Hx. now rewrite <- IH. }
    assert (Hm2 : m_owner m2 = Some (own i) /\ m_table m2 = t /\ relation_table (w_db w') t).
    { unfold many_set in Es. rewrite (many_delete_spec d kw b E gen KW EO (h i) w (own i) Ho) in Es by (rewrite ?Htb; auto).
      destruct (next_fate w); try discriminate. rewrite (add_all_calls R l) in Es.
      destruct (run_calls R (map Add l) _) as [[[]|e|] m1] eqn:Ec; try discriminate.
      destruct (calls_spec R _ _ _ Ec) as (C1 & C2 & (ka & kr & Ka & Kr & C3 & C4) & _). cbn in C1, C2.
      rewrite taken_map in Kr. inversion Kr; subst kr. cbn [m_removed set_all set_pending app] in C4.
      pose proof (save_spec d kw b E gen KW EO m1 (after w (emptied E (w_db w) (m_table (h i)) (own i))) (own i)) as Hsp.
      rewrite C1, C2, C4, Htb in Hsp. specialize (Hsp Ho Ht). cbn [w_db after] in Hsp.
      assert (HR0 : relation_table (emptied E (w_db w) t (own i)) t) by now apply relation_filter.
      specialize (Hsp HR0). specialize (Hsp ltac:(destruct b as [|[|]]; cbn; auto; lia)). rewrite Htb in Es.
      destruct (many_save _ _ _ _ _ m1 _) as [[[u|e|] m3] w3]; try discriminate. destruct Hsp as [-> HD].
      inversion Es; subst. cbn. split; [congruence|]. split; [congruence|]. rewrite HD. cbn [deleted]. now apply relation_add. }
    destruct Hm2 as (Hm1 & Hm2 & Hm3). split; [exact Hm3|]. intros j. destruct (Hh j) as (Ho' & Htb' & Hp' & Hn' & Hrm').
    rewrite Htb in Hpk, Hoth. unfold upd. cbn beta. cbn [rs_related rs_add rs_remove]. destruct (Nat.eqb_spec j i) as [->|Hj].
    + repeat split; auto. now rewrite <- Ek.
    + repeat split; auto. rewrite Hoth; [exact Hp'|now apply Hdiff|]. apply (Hrows (w_db w) i j Hj).
Qed.

Theorem C36_history_partial : forall ops h w h' w' s,
  quotes_enough kw d -> engine_ok E -> identifier t = true -> reserved d "owner" = false ->
  (forall x, rel_key R x = Ok (key x)) ->
  (forall i, same E (own i) (own i) = true) ->
  (forall x i j, same E x (own i) = true -> same E x (own j) = true -> i = j) ->
  represents h w s -> along E key (fun s o => op_apart E s o /\ op_fits b s o) s ops ->
  many_do_all R d kw b E gen ops h w = (Ok tt, h', w') ->
  represents h' w' (fold_left (rel_step E key) ops s).
Proof.
  induction ops as [|o ops IH]; intros h w h' w' s KW EO Ht Hres Hkey Hrefl Hsep Hrep Hal H.
  - cbn in H. inversion H; subst. exact Hrep.
  - cbn [many_do_all] in H. destruct (many_do R d kw b E gen o h w) as [[[[]|e|] h1] w1] eqn:Eo; try discriminate.
    destruct Hal as [[H1 H2] Hal]. cbn [fold_left]. eapply IH; eauto. eapply history_step; eauto.
Qed.
End History.
Print Assumptions C36_history_partial.

(** * C37 *)

Section Load.
Context {T : Type}.
Variables (R : related T) (d : dialect) (kw : string -> bool) (b : backend) (E : engine).
Hypothesis KW : quotes_enough kw d.
Hypothesis EO : engine_ok E.

Definition order_of (order : option bool) : list Order :=
  match order with None => [] | Some desc => [{| ord_desc := desc; ord_column := rel_pkcol R |}] end.

Lemma rel_pk_rows (D : db) : related_names R -> Forall (fun r : row => incl (rel_cols R) (map fst r)) (D (rel_table R)) ->
  Forall (fun r : row => In (rel_pkcol R) (map fst r)) (D (rel_table R)).
Proof. intros (_ & _ & Hin & _) H. rewrite Forall_forall in *. intros r Hr. now apply (H r Hr). Qed.
Lemma related_query_ok x D (N : related_names R) : q_table x = rel_table R -> plain x ->
  Forall (fun o => ord_column o = rel_pkcol R) (q_sort x) ->
  match q_filter x with Some e => bracket_free Anywhere e /\ supported d e | None => True end ->
  room b (length (query_values x)) -> filter_ok E D (rel_table R) (q_filter x) -> query_ok R d b E x D.
Proof.
  destruct N as (N1 & N2 & N3 & N4). intros Et Pl Hs Hf Hr Ho. split; [exact Pl|]. split; [|split; [exact Hr|rewrite Et; exact Ho]].
  split; [rewrite Et; exact N1|]. split; [intros Hn; rewrite Hn in N3; contradiction|]. split; [exact N4|]. split; [|exact Hf].
  rewrite Forall_forall in *. intros o Hin. now rewrite (Hs o Hin).
Qed.
Definition first_query (m : many T) (owner : SqlVal) (order : option bool) : Query :=
  {| q_table := rel_table R; q_filter := Some (BSubquery (rel_pkcol R) (m_table m) "has" (BEq "owner" (EVal owner)));
     q_limit := None; q_offset := None; q_sort := order_of order |}.
Lemma first_query_ok m D owner order : loadable d b R m D owner -> query_ok R d b E (first_query m owner order) D.
Proof.
  intros L. pose proof (ld_names _ _ _ _ _ _ L) as N. apply related_query_ok; auto.
  - split; reflexivity.
  - destruct order; cbn; repeat constructor.
  - destruct N as (_ & N2 & _). cbn. split; [exact I|]. split; [exact N2|]. split; [exact (ld_table _ _ _ _ _ _ L)|].
    split; [reflexivity|]. split; [|exact I]. split; [reflexivity|exact (ld_name _ _ _ _ _ _ L)].
  - cbn [query_values q_filter first_query bound_values].
    assert (length (match owner with VNull => [] | _ => bound owner end) <= 1) by (destruct owner; cbn; lia).
    destruct b as [|[|]]; cbn [room]; auto; lia.
  - apply sub_ok; [exact (ld_set _ _ _ _ _ _ L)|exact (ld_relation _ _ _ _ _ _ L)|].
    apply rel_pk_rows; [exact N|exact (ld_rows _ _ _ _ _ _ L)].
Qed.
Definition second_query (m : many T) : Query := set_filter (BIn (rel_pkcol R) (m_new m)) (q_new (rel_table R)).
Lemma second_query_ok m D owner : loadable d b R m D owner -> m_new m <> [] -> query_ok R d b E (second_query m) D.
Proof.
  intros L NE. pose proof (ld_names _ _ _ _ _ _ L) as N. apply related_query_ok; auto.
  - split; reflexivity.
  - constructor.
  - destruct N as (_ & N2 & _). cbn. split; [exact I|]. split; [exact N2|]. intros; contradiction.
  - exact (ld_room _ _ _ _ _ _ L).
  - apply in_ok. apply rel_pk_rows; [exact N|exact (ld_rows _ _ _ _ _ _ L)].
Qed.
Lemma many_query_owner (m : many T) owner order : m_owner m = Some owner ->
  exists x, many_query R m = Ok x
    /\ (match order with None => x | Some desc => add_order (rel_pkcol R) desc x end) = first_query m owner order.
Proof. intros H. unfold many_query. rewrite H. eexists. split; [reflexivity|]. destruct order; reflexivity. Qed.

Lemma rows_with_nil (D : db) : rows_with E R D [] = [].
Proof.
  unfold rows_with. cbn [among existsb]. induction (D (rel_table R)) as [|r l IH]; [reflexivity|]. cbn [filter].
  destruct (field _ r); exact IH.
Qed.

Lemma load_general m owner order w l m' w' : loadable d b R m (w_db w) owner -> m_all m = None ->
  many_load_answers R d kw b E m order w (Ok l) m' w' ->
  m' = set_all m (Some l) /\ w_db w' = w_db w
  /\ exists rows1 rows2, Permutation (rows_with E R (w_db w) (partners E (w_db w) (m_table m) owner)) rows1
     /\ StronglySorted (row_le E (order_of order)) rows1
     /\ Permutation (rows_with E R (w_db w) (m_new m)) rows2
     /\ Forall2 (object_in R) (rows1 ++ rows2) l.
Proof.
  intros L Ha H. unfold many_load_answers in H.
  destruct (many_query_owner m owner order (ld_owner _ _ _ _ _ _ L)) as (x & Ex & Eo). rewrite Ex, Ha, Eo in H.
  destruct H as [(r1 & w1 & H1 & H2) Hm]. split; [exact Hm|].
  assert (exists vals, r1 = Ok vals) as (vals & ->).
  { destruct r1 as [vals|e|]; [eauto|destruct H2 as [H2 _]; discriminate|destruct H2 as [H2 _]; discriminate]. }
  apply (load_ok R d kw b E KW EO) in H1;
    [|exact (ld_reads _ _ _ _ _ _ L)|now apply first_query_ok|reflexivity].
  destruct H1 as (-> & rows1 & P1 & S1 & F1). cbn [q_filter first_query] in P1. cbn [q_sort first_query] in S1.
  assert (P1' : Permutation (rows_with E R (w_db w) (partners E (w_db w) (m_table m) owner)) rows1).
  { unfold rows_with. erewrite filter_ext; [exact P1|]. intros r. cbn beta.
    symmetry. apply sub_matches; [exact (ld_set _ _ _ _ _ _ L)|exact (ld_relation _ _ _ _ _ _ L)]. }
  destruct (m_new m) as [|k ks] eqn:En.
  - destruct H2 as [H2 ->]. inversion H2; subst vals. split; [reflexivity|]. exists rows1, []. rewrite rows_with_nil, app_nil_r. auto.
  - destruct H2 as (r2 & H2 & Hl). destruct r2 as [v2|e|]; try discriminate. cbn in Hl. inversion Hl; subst l. clear Hl.
    rewrite <- En in H2. fold (second_query m) in H2.
    apply (load_ok R d kw b E KW EO) in H2;
      [|exact (ld_reads _ _ _ _ _ _ L)|cbn [w_db after]; eapply second_query_ok; [exact L|congruence]|reflexivity].
    destruct H2 as (-> & rows2 & P2 & _ & F2). cbn [w_db after] in *. split; [reflexivity|]. exists rows1, rows2.
    split; [exact P1'|]. split; [exact S1|]. split; [|now apply Forall2_app].
    unfold rows_with. erewrite filter_ext; [exact P2|]. intros r. cbn beta. cbn [q_filter second_query set_filter].
    rewrite En. symmetry. apply in_matches.
Qed.

Lemma rows_with_app D l l' :
  (forall r x, In r (D (rel_table R)) -> field (rel_pkcol R) r = Some x -> among E x l = true -> among E x l' = false) ->
  Permutation (rows_with E R D (l ++ l')) (rows_with E R D l ++ rows_with E R D l').
Proof.
  intros H. unfold rows_with. induction (D (rel_table R)) as [|r rs IH]; [constructor|].
  specialize (IH (fun r x Hr => H r x (or_intror Hr))). specialize (H r). cbn [filter].
  destruct (field (rel_pkcol R) r) as [x|]; [|exact IH].
  specialize (H x (or_introl eq_refl) eq_refl). unfold among in *. rewrite existsb_app.
  destruct (existsb (same E x) l); cbn [orb].
  - rewrite H by reflexivity. cbn [app]. now constructor.
  - destruct (existsb (same E x) l'); [|exact IH]. eapply Permutation_trans; [apply perm_skip, IH|]. apply Permutation_middle.
Qed.

Lemma load_answers_total m owner w : loadable d b R m (w_db w) owner -> m_all m = None -> untroubled w ->
  (forall r vs, In r (w_db w (rel_table R)) -> columns_of (rel_cols R) r = Some vs -> exists o, rel_of_row R vs = Ok o) ->
  (exists l m' w', many_load_answers R d kw b E m None w (Ok l) m' w')
  /\ (forall r m' w', many_load_answers R d kw b E m None w r m' w' -> exists l, r = Ok l).
Proof.
  intros L Ha Ut Hread. unfold many_load_answers.
  destruct (many_query_owner m owner None (ld_owner _ _ _ _ _ _ L)) as (x & Ex & Eo). cbn in Eo. rewrite Ex, Ha. subst x.
  destruct (load_total R d kw b E KW EO (first_query m owner None) w (ld_reads _ _ _ _ _ _ L) (first_query_ok _ _ _ _ L)
              eq_refl eq_refl Ut (ld_rows _ _ _ _ _ _ L) Hread) as [(l1 & H1) T1].
  assert (NX : m_new m <> [] ->
     (exists l, load_answers R d kw b E (second_query m) (after w (w_db w)) (Ok l) (after (after w (w_db w)) (w_db w)))
     /\ forall r w', load_answers R d kw b E (second_query m) (after w (w_db w)) r w' -> exists l, r = Ok l).
  { intros NE. apply (load_total R d kw b E KW EO (second_query m) (after w (w_db w)) (ld_reads _ _ _ _ _ _ L)); auto.
    - eapply second_query_ok; eauto.
    - now apply after_untroubled.
    - exact (ld_rows _ _ _ _ _ _ L). }
  split.
  - destruct (m_new m) as [|k ks] eqn:En.
    + exists l1. eexists. eexists. split; [|reflexivity]. exists (Ok l1). eexists. split; [exact H1|]. rewrite En. split; reflexivity.
    + destruct (NX ltac:(discriminate)) as [(l2 & H2) _]. exists (l1 ++ l2). eexists. eexists. split; [|reflexivity].
      exists (Ok l1). eexists. split; [exact H1|]. rewrite En. exists (Ok l2). rewrite <- En. split; [exact H2|reflexivity].
  - intros r m' w' [(r1 & w1 & H & H2) _]. destruct (T1 _ _ H) as (l & ->).
    apply (load_ok R d kw b E KW EO) in H; [|exact (ld_reads _ _ _ _ _ _ L)|now apply first_query_ok|reflexivity].
    destruct H as [-> _]. destruct (m_new m) as [|k ks] eqn:En.
    + destruct H2 as [-> _]. eauto.
    + destruct H2 as (r2 & H2 & ->). destruct (NX ltac:(discriminate)) as [_ T2]. rewrite <- En in H2. destruct (T2 _ _ H2) as (l2 & ->).
      cbn. eauto.
Qed.
End Load.

(** With no cached value and no pending removal, load returns the object of each
    row of the related table whose key is related to the owner or to be added,
    each once if nothing to be added is related already.  Nothing but the cache
    changes. *)
Theorem C37_load_partial : forall T (R : related T) d kw b E (m : many T) owner order w l m' w',
  quotes_enough kw d -> engine_ok E -> loadable d b R m (w_db w) owner -> m_all m = None -> m_removed m = [] ->
  (forall r x, In r (w_db w (rel_table R)) -> field (rel_pkcol R) r = Some x ->
     among E x (partners E (w_db w) (m_table m) owner) = true -> among E x (m_new m) = false) ->
  many_load_answers R d kw b E m order w (Ok l) m' w' ->
  (exists rows, Permutation (rows_with E R (w_db w)
                    (without E (partners E (w_db w) (m_table m) owner ++ m_new m) (m_removed m))) rows
     /\ Forall2 (object_in R) rows l)
  /\ m' = set_all m (Some l) /\ w_db w' = w_db w.
Proof.
  intros T R d kw b E m owner order w l m' w' KW EO L Ha Hr Hd H.
  destruct (load_general R d kw b E KW EO m owner order w l m' w' L Ha H) as (H1 & H2 & rows1 & rows2 & P1 & _ & P2 & F).
  split; [|auto]. exists (rows1 ++ rows2). split; [|exact F]. rewrite Hr, without_nil.
  eapply Permutation_trans; [apply rows_with_app, Hd|]. now apply Permutation_app.
Qed.
Print Assumptions C37_load_partial.

(** In any state: the related ones followed by those to be added. *)
Theorem C37_load_any_partial : forall T (R : related T) d kw b E (m : many T) owner order w l m' w',
  quotes_enough kw d -> engine_ok E -> loadable d b R m (w_db w) owner -> m_all m = None ->
  many_load_answers R d kw b E m order w (Ok l) m' w' ->
  (exists rows1 rows2, Permutation (rows_with E R (w_db w) (partners E (w_db w) (m_table m) owner)) rows1
     /\ Permutation (rows_with E R (w_db w) (m_new m)) rows2
     /\ Forall2 (object_in R) (rows1 ++ rows2) l)
  /\ m' = set_all m (Some l) /\ w_db w' = w_db w.
Proof.
  intros T R d kw b E m owner order w l m' w' KW EO L Ha H.
  destruct (load_general R d kw b E KW EO m owner order w l m' w' L Ha H) as (H1 & H2 & rows1 & rows2 & P1 & _ & P2 & F).
  split; [|auto]. eauto 6.
Qed.
Print Assumptions C37_load_any_partial.

(** load succeeds whenever nothing fails and the rows can be read. *)
Theorem C37_load_succeeds : forall T (R : related T) d kw b E (m : many T) owner w,
  quotes_enough kw d -> engine_ok E -> loadable d b R m (w_db w) owner -> m_all m = None -> untroubled w ->
  (forall r vs, In r (w_db w (rel_table R)) -> columns_of (rel_cols R) r = Some vs -> exists o, rel_of_row R vs = Ok o) ->
  (exists l m' w', many_load_answers R d kw b E m None w (Ok l) m' w')
  /\ (forall r m' w', many_load_answers R d kw b E m None w r m' w' -> exists l, r = Ok l).
Proof. intros. eapply load_answers_total; eauto. Qed.
Print Assumptions C37_load_succeeds.

(** load_ordered without pending additions sorts by key. *)
Theorem C37_ordered_partial : forall T (R : related T) d kw b E (m : many T) owner desc w l m' w',
  quotes_enough kw d -> engine_ok E -> loadable d b R m (w_db w) owner -> m_all m = None -> m_new m = [] ->
  many_load_answers R d kw b E m (Some desc) w (Ok l) m' w' ->
  exists rows, Permutation (rows_with E R (w_db w) (partners E (w_db w) (m_table m) owner)) rows
     /\ StronglySorted (row_le E [{| ord_desc := desc; ord_column := rel_pkcol R |}]) rows
     /\ Forall2 (object_in R) rows l.
Proof.
  intros T R d kw b E m owner desc w l m' w' KW EO L Ha Hn H.
  destruct (load_general R d kw b E KW EO m owner (Some desc) w l m' w' L Ha H) as (_ & _ & rows1 & rows2 & P1 & S1 & P2 & F).
  rewrite Hn, rows_with_nil in P2. apply Permutation_nil in P2. subst rows2. rewrite app_nil_r in F. eauto.
Qed.
Print Assumptions C37_ordered_partial.

(** A loaded field is not loaded again; get returns what was loaded; a field that
    belongs to no object loads as empty; a failed load caches nothing. *)
Theorem C37_cached : forall T (R : related T) d kw b E (m : many T) order w r m' w' l,
  m_owner m <> None -> m_all m = Some l -> many_load_answers R d kw b E m order w r m' w' ->
  r = Ok l /\ m' = m /\ w' = w /\ many_get m = Ok l.
Proof.
  intros T R d kw b E m order w r m' w' l Ho Ha H. unfold many_load_answers, many_query in H.
  destruct (m_owner m); [|congruence]. rewrite Ha in H. unfold many_get. rewrite Ha. intuition.
Qed.
Print Assumptions C37_cached.
Theorem C37_uninitialized : forall T (R : related T) d kw b E (m : many T) order w r m' w',
  m_owner m = None -> many_load_answers R d kw b E m order w r m' w' -> r = Ok [] /\ m' = m /\ w' = w.
Proof. intros T R d kw b E m order w r m' w' Ho H. unfold many_load_answers, many_query in H. now rewrite Ho in H. Qed.
Print Assumptions C37_uninitialized.
Theorem C37_failed_load : forall T (R : related T) d kw b E (m : many T) order w r m' w',
  many_load_answers R d kw b E m order w r m' w' -> (forall l, r <> Ok l) -> m' = m.
Proof.
  intros T R d kw b E m order w r m' w' H N. unfold many_load_answers in H. destruct (many_query R m); try (now apply proj2 in H as [H _]).
  destruct (m_all m); [now apply proj2 in H as [H _]|]. destruct H as [_ ->]. destruct r; auto. now edestruct N.
Qed.
Print Assumptions C37_failed_load.

(** get fails until something has been loaded, and again after an addition or a removal;
    otherwise it returns what was loaded or set last. *)
Theorem C37_get : forall T (R : related T),
  many_get (@many_new T) = Err ValueNotLoaded
  /\ (forall (m : many T) t owner ty, m_owner m = None -> many_get (ensure_init m t owner ty) = Err ValueNotLoaded)
  /\ (forall m x m', many_add R m x = (Ok tt, m') -> many_get m' = Err ValueNotLoaded)
  /\ (forall m x m', many_remove R m x = (Ok tt, m') -> many_get m' = Err ValueNotLoaded)
  /\ (forall d kw b E gen (m m' : many T) w w', many_delete d kw b E gen m w = (Ok tt, m', w') -> many_get m' = Ok [])
  /\ (forall d kw b E gen m l w m' w', many_set R d kw b E gen m l w = (Ok tt, m', w') -> many_get m' = Ok l)
  /\ (forall d kw b E gen (m m' : many T) w r w', many_save d kw b E gen m w = (r, m', w') -> many_get m' = many_get m)
  /\ (forall d kw b E m order w l m' w', m_owner m <> None -> many_load_answers R d kw b E m order w (Ok l) m' w' -> many_get m' = Ok l).
Proof.
  intros T R. split; [reflexivity|]. split; [|split; [|split; [|split; [|split; [|split]]]]].
  - intros m t owner ty H. unfold ensure_init. now rewrite H.
  - intros m x m' H. unfold many_add in H. destruct (rel_valid R x); [|discriminate]. destruct (rel_key R x); inversion H. reflexivity.
  - intros m x m' H. unfold many_remove in H. destruct (rel_key R x); inversion H. reflexivity.
  - intros d kw b E gen m m' w w' H. unfold many_delete in H. destruct (m_owner m); [|discriminate]. destruct (conn_delete_where d kw b E gen _ _ w) as [[]]; inversion H. reflexivity.
  - intros d kw b E gen m l w m' w' H. unfold many_set in H. destruct (many_delete d kw b E gen m w) as [[[] m1] w1]; try discriminate.
    destruct (add_all R m1 l) as [[] m2]; try discriminate. destruct (many_save d kw b E gen m2 w1) as [[[] m3] w3]; inversion H. reflexivity.
  - intros d kw b E gen m m' w r w' H. unfold many_save in H. destruct (m_owner m); [|now inversion H].
    destruct (insert_new d kw b E gen (m_table m) s (rev (m_new m)) w) as [[[] rest] w1]; try (inversion H; reflexivity).
    destruct (m_removed m); [now inversion H|]. destruct (conn_delete_where d kw b E gen _ _ w1). now inversion H.
  - intros d kw b E m order w l m' w' Ho H. unfold many_load_answers, many_query in H. destruct (m_owner m); [|congruence]. destruct (m_all m) as [l0|] eqn:Ea.
    + destruct H as ([= ->] & -> & _). unfold many_get. now rewrite Ea.
    + destruct H as [_ ->]. reflexivity.
Qed.
Print Assumptions C37_get.

(** Two fields are equal when they are the same relation of the same owner; what is pending
    or loaded does not matter. *)
Theorem C37_equal : forall T (a b : many T),
  many_eqb a b = true <-> m_table a = m_table b /\ same_opt sqlval_same (m_owner a) (m_owner b).
Proof.
  intros T a b. unfold many_eqb. rewrite andb_true_iff, String.eqb_eq.
  change (match m_owner a, m_owner b with Some x, Some y => sqlval_eqb x y | None, None => true | _, _ => false end) with (opt_eqb sqlval_eqb (m_owner a) (m_owner b)).
  rewrite (opt_eqb_iff sqlval_eqb sqlval_same (m_owner a) (m_owner b) sqlval_eqb_same). tauto.
Qed.
Print Assumptions C37_equal.

(** After adds and removes and a save, a load returns exactly what is related
    after the save, if the field was not loaded between the last add or remove and
    the save (otherwise see C37_stale_refuted). *)
Theorem C37_after_save_partial : forall T (R : related T) d kw b E gen calls (m m1 m2 m3 : many T) w w1 w2 owner order l,
  quotes_enough kw d -> engine_ok E -> loadable d b R m (w_db w) owner -> same E owner owner = true ->
  m_new m = [] -> m_removed m = [] -> m_all m = None -> m_table m <> rel_table R ->
  run_calls R calls m = (Ok tt, m1) -> room b (length (flat_map bound (m_removed m1))) ->
  many_save d kw b E gen m1 w = (Ok tt, m2, w1) ->
  many_load_answers R d kw b E m2 order w1 (Ok l) m3 w2 ->
  exists ka kr rows, Forall2 (fun x k => rel_key R x = Ok k) (added calls) ka
    /\ Forall2 (fun x k => rel_key R x = Ok k) (taken calls) kr
    /\ Permutation (rows_with E R (w_db w) (without E (partners E (w_db w) (m_table m) owner ++ ka) kr)) rows
    /\ Forall2 (object_in R) rows l.
Proof.
  intros T R d kw b E gen calls m m1 m2 m3 w w1 w2 owner order l KW EO L Hs Hn Hr Ha Hne Hc Hroom Hsave Hload.
  pose proof (ld_owner _ _ _ _ _ _ L) as Ho. pose proof (ld_table _ _ _ _ _ _ L) as Ht.
  destruct (C36_save_partial T R d kw b E gen calls m m1 m2 w w1 owner KW EO Ht (ld_relation _ _ _ _ _ _ L) Ho Hs Hn Hr Hc Hroom Hsave)
    as (ka & kr & Ka & Kr & Hp & _ & Hoth & N2 & R2 & O2 & T2).
  destruct (calls_spec R calls m m1 Hc) as (C1 & C2 & _ & C5 & C6 & _).
  pose proof (save_spec d kw b E gen KW EO m1 w owner) as Hsp. rewrite C1, C2 in Hsp.
  specialize (Hsp Ho Ht (ld_relation _ _ _ _ _ _ L) Hroom). rewrite Hsave in Hsp. destruct Hsp as [Em HD].
  assert (A2 : m_all m2 = None).
  { rewrite Em. cbn [m_all set_pending]. destruct calls; [now rewrite C6|apply C5; discriminate]. }
  assert (Er : w_db w1 (rel_table R) = w_db w (rel_table R)) by (apply Hoth; congruence).
  assert (L2 : loadable d b R m2 (w_db w1) owner).
  { split; try (rewrite ?O2, ?T2; apply L).
    - rewrite T2, HD. apply relation_deleted, relation_add, L.
    - rewrite Er. apply L.
    - rewrite N2. cbn. destruct b as [|[|]]; cbn; auto; lia. }
  destruct (load_general R d kw b E KW EO m2 owner order w1 l m3 w2 L2 A2 Hload) as (_ & _ & rows1 & rows2 & P1 & _ & P2 & F).
  rewrite N2, rows_with_nil in P2. apply Permutation_nil in P2. subst rows2. rewrite app_nil_r in F. rewrite T2 in P1.
  exists ka, kr, rows1. split; [exact Ka|]. split; [exact Kr|]. split; [|exact F].
  eapply Permutation_trans; [|exact P1]. unfold rows_with. rewrite Er. erewrite filter_ext; [apply Permutation_refl|].
  intros r. cbn beta. destruct (field _ r) as [x|]; [|reflexivity]. apply among_perm. now apply Permutation_sym.
Qed.
Print Assumptions C37_after_save_partial.

(** A load, successful or not, changes neither the database nor what is pending. *)
Lemma load_answers_db T (R : related T) d kw b E x w r w' : load_answers R d kw b E x w r w' -> w_db w' = w_db w.
Proof.
  intros (q & Hq & _). unfold query_answers in Hq. destruct (load_sql b kw (rel_cols R) x) as [[s vs]|e|].
  - destruct Hq as [-> _]. reflexivity.
  - now destruct Hq as [_ ->].
  - now destruct Hq as [_ ->].
Qed.
Theorem C37_load_changes_nothing : forall T (R : related T) d kw b E (m : many T) order w r m' w',
  many_load_answers R d kw b E m order w r m' w' ->
  w_db w' = w_db w /\ m_new m' = m_new m /\ m_removed m' = m_removed m /\ m_owner m' = m_owner m /\ m_table m' = m_table m.
Proof.
  intros T R d kw b E m order w r m' w' H. unfold many_load_answers in H.
  destruct (many_query R m) as [x|e|]; [|destruct H as (_ & -> & ->); auto|destruct H as (_ & -> & ->); auto].
  destruct (m_all m); [destruct H as (_ & -> & ->); auto|]. destruct H as [(r1 & w1 & H1 & H2) ->].
  split; [|destruct r; repeat split; reflexivity]. apply load_answers_db in H1. rewrite <- H1.
  destruct r1 as [vals|e|]; [|now destruct H2 as [_ ->]|now destruct H2 as [_ ->]].
  destruct (m_new m); [now destruct H2 as [_ ->]|]. destruct H2 as (r2 & H2 & _). now apply load_answers_db in H2.
Qed.
Print Assumptions C37_load_changes_nothing.
(** So loads may occur anywhere in the histories of C36. *)
Theorem C36_load_keeps : forall T (R : related T) d kw b E t own (h : nat -> many T) w s i order r m' w',
  represents E t own h w s -> many_load_answers R d kw b E (h i) order w r m' w' ->
  represents E t own (fun j => if Nat.eqb j i then m' else h j) w' s.
Proof.
  intros T R d kw b E t own h w s i order r m' w' [HR Hh] H.
  destruct (C37_load_changes_nothing T R d kw b E (h i) order w r m' w' H) as (E1 & E2 & E3 & E4 & E5).
  split; [now rewrite E1|]. intros j. destruct (Hh j) as (H1 & H2 & H3 & H4 & H5). cbn beta. rewrite E1.
  destruct (Nat.eqb_spec j i) as [->|Hj]; [|auto]. repeat split; congruence || auto.
Qed.
Print Assumptions C36_load_keeps.

(** * Examples and refutations *)

(** Tags are numbers; posts 1 and 2 have tags. *)
Definition ex_tag : related Z :=
  {| rel_valid := fun _ => true; rel_key := fun x => Ok (VInt x); rel_table := "tag"; rel_pkcol := "id"; rel_cols := ["id"];
     rel_of_row := fun vs => match vs with [VInt z] => Ok z | _ => Err BoundsError end |}.
Definition ex_link (o h : Z) : row := [("owner", VInt o); ("has", VInt h)].
Definition ex_tags : db := fun t =>
  if String.eqb t "post_tags_Many" then [ex_link 1 10; ex_link 2 10; ex_link 2 20]
  else if String.eqb t "tag" then [[("id", VInt 10)]; [("id", VInt 20)]; [("id", VInt 30)]] else [].
Definition ex_gen : db -> string -> list string -> row := fun _ _ _ => [].
Definition ex_world : world := {| w_db := ex_tags; w_fate := [] |}.
Definition ex_many (o : Z) : many Z :=
  {| m_table := "post_tags_Many"; m_owner := Some (VInt o); m_otype := TInt; m_new := []; m_removed := []; m_all := None |}.
Definition saved (x : outcome unit * many Z * world) : db := let '(_, _, w) := x in w_db w.
Definition calls_of (l : list (call Z)) (m : many Z) : many Z := snd (run_calls ex_tag l m).

Ltac rows_have := apply Forall_forall; intros r Hr;
  repeat (destruct Hr as [<-|Hr]; [intros c Hc; exact Hc|]); contradiction.
Example ex_tags_table : relation_table ex_tags "post_tags_Many".
Proof. unfold relation_table. rows_have. Qed.
Example ex_loadable : forall o new, loadable sqlite_like Sqlite ex_tag (set_pending (ex_many o) new []) ex_tags (VInt o).
Proof.
  intros o new. split; try reflexivity; try exact I.
  - discriminate.
  - exact ex_tags_table.
  - repeat split; try reflexivity; try (now left). repeat constructor.
  - rows_have.
Qed.

(** The theorems about saving have a case: post 1 gets tag 30 and loses 10; post 2
    keeps 20. *)
Example C36_case :
  quotes_enough ex_kw sqlite_like /\ engine_ok ex_engine /\ same ex_engine (VInt 1) (VInt 1) = true
  /\ fst (run_calls ex_tag [Add 30%Z; Remove 10%Z] (ex_many 1)) = Ok tt
  /\ fst (fst (many_save sqlite_like ex_kw Sqlite ex_engine ex_gen (calls_of [Add 30%Z; Remove 10%Z] (ex_many 1)) ex_world)) = Ok tt
  /\ partners ex_engine (saved (many_save sqlite_like ex_kw Sqlite ex_engine ex_gen
       (calls_of [Add 30%Z; Remove 10%Z] (ex_many 1)) ex_world)) "post_tags_Many" (VInt 1) = [VInt 30]
  /\ partners ex_engine (saved (many_set ex_tag sqlite_like ex_kw Sqlite ex_engine ex_gen (ex_many 2) [30%Z; 10%Z] ex_world))
       "post_tags_Many" (VInt 2) = [VInt 10; VInt 30]
  /\ partners ex_engine (saved (many_delete sqlite_like ex_kw Sqlite ex_engine ex_gen (ex_many 2) ex_world))
       "post_tags_Many" (VInt 2) = [].
Proof. split; [exact ex_quotes_sqlite|]. split; [exact ex_engine_ok|]. repeat split; vm_compute; reflexivity. Qed.
(** A history over two owners. *)
Definition ex_ops : list (many_op Z) :=
  [OAdd 1 30%Z; ORemove 0 30%Z; OAdd 0 20%Z; OSave 1; ODelete 0; OAdd 0 10%Z; OSave 0; OSet 1 [10%Z; 20%Z; 30%Z]; ORemove 1 20%Z].
Definition ex_state : rel_state :=
  {| rs_related := fun i => partners ex_engine ex_tags "post_tags_Many" (VInt (Z.of_nat i + 1)); rs_add := fun _ => []; rs_remove := fun _ => [] |}.
Example C36_history_case :
  represents ex_engine "post_tags_Many" (fun i => VInt (Z.of_nat i + 1)) (fun i => ex_many (Z.of_nat i + 1)) ex_world ex_state
  /\ along ex_engine VInt (fun s o => op_apart ex_engine s o /\ op_fits Sqlite s o) ex_state ex_ops
  /\ fst (fst (many_do_all ex_tag sqlite_like ex_kw Sqlite ex_engine ex_gen ex_ops (fun i => ex_many (Z.of_nat i + 1)) ex_world)) = Ok tt
  /\ rs_related (fold_left (rel_step ex_engine VInt) ex_ops ex_state) 1 = [VInt 10; VInt 20; VInt 30].
Proof.
  split; [|split; [|split; vm_compute; reflexivity]].
  - split; [exact ex_tags_table|]. intros i. repeat split. apply Permutation_refl.
  - cbn. repeat split; intros; reflexivity.
Qed.

(** Removing an object from one owner's field removes it from every owner's. *)
Theorem C36_other_owner_refuted : exists (m m2 : many Z) w w' other,
  m = calls_of [Remove 10%Z] (ex_many 1) /\ same ex_engine (VInt 1) other = false
  /\ many_save sqlite_like ex_kw Sqlite ex_engine ex_gen m w = (Ok tt, m2, w')
  /\ partners ex_engine (w_db w) (m_table m) other = [VInt 10; VInt 20]
  /\ partners ex_engine (w_db w') (m_table m) other = [VInt 20].
Proof. exists (calls_of [Remove 10%Z] (ex_many 1)). eexists. exists ex_world. eexists. exists (VInt 2). repeat split; vm_compute; reflexivity. Qed.
Print Assumptions C36_other_owner_refuted.
(** An object removed and then added again is not related after the save. *)
Theorem C36_remove_then_add_refuted : exists (m2 : many Z) w',
  many_save sqlite_like ex_kw Sqlite ex_engine ex_gen (calls_of [Remove 20%Z; Add 20%Z] (ex_many 2)) ex_world = (Ok tt, m2, w')
  /\ partners ex_engine (w_db w') "post_tags_Many" (VInt 2) = [VInt 10].
Proof. do 2 eexists. split; vm_compute; reflexivity. Qed.
Print Assumptions C36_remove_then_add_refuted.
(** A failed save forgets what it could not store: nothing is pending and nothing
    is stored.  Likewise for removals. *)
Theorem C36_failed_save_refuted :
  let w := {| w_db := ex_tags; w_fate := [Refused] |} in
  (exists e (m2 : many Z) w', many_save sqlite_like ex_kw Sqlite ex_engine ex_gen (calls_of [Add 30%Z] (ex_many 1)) w = (Err e, m2, w')
     /\ m_new m2 = [] /\ w_db w' = ex_tags)
  /\ (exists e (m2 : many Z) w', many_save sqlite_like ex_kw Sqlite ex_engine ex_gen (calls_of [Remove 10%Z] (ex_many 1)) w = (Err e, m2, w')
     /\ m_removed m2 = [] /\ w_db w' = ex_tags).
Proof. split; do 3 eexists; (split; [vm_compute; reflexivity|split; reflexivity]). Qed.
Print Assumptions C36_failed_save_refuted.

Lemma ex_reads : forall r vs, In r (ex_tags "tag") -> columns_of ["id"] r = Some vs -> exists o, rel_of_row ex_tag vs = Ok o.
Proof. intros r vs [<-|[<-|[<-|[]]]] H; vm_compute in H; inversion H; eexists; reflexivity. Qed.
Lemma ex_load : forall o new, exists l m' w',
  many_load_answers ex_tag sqlite_like ex_kw Sqlite ex_engine (set_pending (ex_many o) new []) None ex_world (Ok l) m' w'.
Proof.
  intros o new. destruct (C37_load_succeeds Z ex_tag sqlite_like ex_kw Sqlite ex_engine (set_pending (ex_many o) new []) (VInt o) ex_world
    ex_quotes_sqlite ex_engine_ok (ex_loadable o new) eq_refl) as [H _]; [constructor|exact ex_reads|exact H].
Qed.

Example C37_case : exists l m' w',
  many_load_answers ex_tag sqlite_like ex_kw Sqlite ex_engine (calls_of [Add 30%Z] (ex_many 2)) None ex_world (Ok l) m' w'
  /\ rows_with ex_engine ex_tag ex_tags (partners ex_engine ex_tags "post_tags_Many" (VInt 2) ++ [VInt 30])
     = [[("id", VInt 10)]; [("id", VInt 20)]; [("id", VInt 30)]]
  /\ Permutation l [10%Z; 20%Z; 30%Z].
Proof.
  destruct (ex_load 2 [VInt 30]) as (l & m' & w' & H). exists l, m', w'. split; [exact H|]. split; [vm_compute; reflexivity|].
  assert (L := C37_load_partial Z ex_tag sqlite_like ex_kw Sqlite ex_engine (set_pending (ex_many 2) [VInt 30] []) (VInt 2) None ex_world
              l m' w' ex_quotes_sqlite ex_engine_ok (ex_loadable 2 [VInt 30]) eq_refl eq_refl).
  destruct L as [(rows & P & F) _]; [|exact H|].
  { intros r x [<-|[<-|[<-|[]]]] Hf Ha; vm_compute in Hf; inversion Hf; subst; first [reflexivity|vm_compute in Ha; discriminate]. }
  assert (P' : Permutation [[("id", VInt 10)]; [("id", VInt 20)]; [("id", VInt 30)]] rows) by exact P. clear P.
  assert (Hmap : l = map (fun r => match field "id" r with Some (VInt z) => z | _ => 0%Z end) rows).
  { assert (Hin : forall r, In r rows -> In r [[("id", VInt 10)]; [("id", VInt 20)]; [("id", VInt 30)]])
      by (intros r Hr; eapply Permutation_in; [apply Permutation_sym; exact P'|exact Hr]).
    clear - F Hin. induction F as [|r x rows l (vs & Hc & Ho) _ IH]; [reflexivity|]. cbn [map]. f_equal.
    - destruct (Hin r (or_introl eq_refl)) as [<-|[<-|[<-|[]]]]; vm_compute in Hc; inversion Hc; subst; vm_compute in Ho; inversion Ho; reflexivity.
    - apply IH. intros r' Hr'. apply Hin. now right. }
  subst l. apply Permutation_sym. apply (Permutation_map (fun r => match field "id" r with Some (VInt z) => z | _ => 0%Z end)) in P'. exact P'.
Qed.

(** A pending removal is not taken into account. *)
Theorem C37_removed_refuted : exists (m : many Z) l m' w',
  m = calls_of [Remove 20%Z] (ex_many 2) /\ m_removed m = [VInt 20]
  /\ many_load_answers ex_tag sqlite_like ex_kw Sqlite ex_engine m None ex_world (Ok l) m' w' /\ In 20%Z l.
Proof.
  destruct (ex_load 2 []) as (l & m' & w' & H).
  destruct (C37_load_any_partial Z ex_tag sqlite_like ex_kw Sqlite ex_engine (set_pending (ex_many 2) [] []) (VInt 2) None ex_world l m' w'
              ex_quotes_sqlite ex_engine_ok (ex_loadable 2 []) eq_refl H) as ((rows1 & rows2 & P1 & P2 & F) & _).
  exists (calls_of [Remove 20%Z] (ex_many 2)), l, (set_all (calls_of [Remove 20%Z] (ex_many 2)) (Some l)), w'.
  split; [reflexivity|]. split; [reflexivity|]. split.
  - destruct H as [H _]. split; [exact H|reflexivity].
  - assert (In [("id", VInt 20)] rows1) by (eapply Permutation_in; [exact P1|vm_compute; auto]).
    assert (In [("id", VInt 20)] (rows1 ++ rows2)) as H1 by (apply in_or_app; now left).
    clear - F H1. induction F as [|r x rows l' (vs & Hc & Ho) _ IH]; [contradiction|].
    destruct H1 as [->|H1]; [left|right; now apply IH]. vm_compute in Hc. inversion Hc; subst. vm_compute in Ho. now inversion Ho.
Qed.
Print Assumptions C37_removed_refuted.

(** An object that is added although it is related already comes twice. *)
Theorem C37_twice_refuted : exists (m : many Z) l m' w',
  m = calls_of [Add 10%Z] (ex_many 1)
  /\ many_load_answers ex_tag sqlite_like ex_kw Sqlite ex_engine m None ex_world (Ok l) m' w' /\ l = [10%Z; 10%Z].
Proof.
  destruct (ex_load 1 [VInt 10]) as (l & m' & w' & H). exists (calls_of [Add 10%Z] (ex_many 1)), l, m', w'.
  split; [reflexivity|]. split; [exact H|].
  destruct (C37_load_any_partial Z ex_tag sqlite_like ex_kw Sqlite ex_engine (set_pending (ex_many 1) [VInt 10] []) (VInt 1) None ex_world l m' w'
              ex_quotes_sqlite ex_engine_ok (ex_loadable 1 [VInt 10]) eq_refl H) as ((rows1 & rows2 & P1 & P2 & F) & _).
  assert (P1' : Permutation [[("id", VInt 10)]] rows1) by exact P1. assert (P2' : Permutation [[("id", VInt 10)]] rows2) by exact P2.
  apply Permutation_length_1_inv in P1'. apply Permutation_length_1_inv in P2'. subst.
  inversion F as [|? x ? l1 (v1 & Hc1 & Ho1) F1]; subst. inversion F1 as [|? y ? l2 (v2 & Hc2 & Ho2) F2]; subst. inversion F2; subst.
  vm_compute in Hc1, Hc2. inversion Hc1; inversion Hc2; subst. vm_compute in Ho1, Ho2. now inversion Ho1; inversion Ho2.
Qed.
Print Assumptions C37_twice_refuted.

Lemma load_keeps_quiet {T} (R : related T) d kw b E (m : many T) order w l m' w' : w_fate w = [] -> m_all m = None -> m_owner m <> None ->
  many_load_answers R d kw b E m order w (Ok l) m' w' -> m' = set_all m (Some l) /\ w' = w.
Proof.
  intros Hw Ha Ho H. unfold many_load_answers, many_query in H. destruct (m_owner m); [|congruence]. rewrite Ha in H.
  destruct H as [(r1 & w1 & H1 & H2) ->]. split; [reflexivity|].
  assert (Hq : forall x w r w', w_fate w = [] -> load_answers R d kw b E x w r w' -> w' = w).
  { clear. intros x w r w' Hw (q & Hq & _). unfold query_answers in Hq. destruct (load_sql b kw (rel_cols R) x) as [[s vs]|e|]; destruct Hq as [Hq Hq'].
    - subst w'. destruct w as [D f]. cbn in *. now subst.
    - now subst.
    - now subst. }
  apply Hq in H1 as ->; [|exact Hw]. destruct r1 as [vals|e|]; [|now destruct H2 as [_ ->]..].
  destruct (m_new m); [now destruct H2 as [_ ->]|]. destruct H2 as (r2 & H2 & _). now apply Hq in H2.
Qed.
(** remove, load, save, load: the second load still returns the removed object. *)
Theorem C37_stale_refuted : exists (m1 m2 : many Z) l w1 w2,
  many_load_answers ex_tag sqlite_like ex_kw Sqlite ex_engine (calls_of [Remove 20%Z] (ex_many 2)) None ex_world (Ok l) m1 w1
  /\ many_save sqlite_like ex_kw Sqlite ex_engine ex_gen m1 w1 = (Ok tt, m2, w2)
  /\ partners ex_engine (w_db w2) "post_tags_Many" (VInt 2) = [VInt 10]
  /\ (forall r m3 w3, many_load_answers ex_tag sqlite_like ex_kw Sqlite ex_engine m2 None w2 r m3 w3 -> r = Ok l) /\ In 20%Z l.
Proof.
  destruct C37_removed_refuted as (m & l & m1 & w1 & -> & _ & H & Hin).
  destruct (load_keeps_quiet ex_tag sqlite_like ex_kw Sqlite ex_engine (calls_of [Remove 20%Z] (ex_many 2)) None ex_world l m1 w1
    eq_refl eq_refl ltac:(discriminate) H) as [-> ->].
  pose (m1 := set_all (calls_of [Remove 20%Z] (ex_many 2)) (Some l)).
  assert (Hs : exists m2 w2, many_save sqlite_like ex_kw Sqlite ex_engine ex_gen m1 ex_world = (Ok tt, m2, w2)
            /\ partners ex_engine (w_db w2) "post_tags_Many" (VInt 2) = [VInt 10] /\ m_all m2 = Some l /\ m_owner m2 = Some (VInt 2)).
  { do 2 eexists. split; [vm_compute; reflexivity|]. repeat split; vm_compute; reflexivity. }
  destruct Hs as (m2 & w2 & Hs & Hp & Ha & Ho).
  exists m1, m2, l, ex_world, w2. split; [exact H|]. split; [exact Hs|]. split; [exact Hp|]. split; [|exact Hin].
  intros r m3 w3 Hl. apply C37_cached with (l := l) in Hl as (-> & _); [reflexivity|rewrite Ho; discriminate|exact Ha].
Qed.
Print Assumptions C37_stale_refuted.

Lemma load_plain {T} (R : related T) d kw b E x w out l : quotes_enough kw d -> engine_ok E -> reads_sql b d -> query_ok R d b E x (w_db w) ->
  next_fate w = Works -> returns E (w_db w) x (q_limit x) (rel_cols R) out -> omapm (rel_of_row R) out = Ok l ->
  load_answers R d kw b E x w (Ok l) (after w (w_db w)).
Proof.
  intros KW EO RS (P & Q1 & Q2 & Q3) Hf Hr Hl. exists (Ok out). split; [|cbn; now rewrite Hl].
  apply (query_effect d kw b E KW EO); auto.
  - destruct P as [-> _]. exact I.
  - destruct P as [_ ->]. exact I.
  - now apply plain_fits.
  - split; [reflexivity|]. rewrite Hf. left. eauto.
Qed.
(** load_ordered puts pending additions last whatever their key. *)
Theorem C37_order_refuted : exists (m m' : many Z) w w',
  m = calls_of [Add 5%Z] (ex_many 1) /\ m_all m = None
  /\ many_load_answers ex_tag sqlite_like ex_kw Sqlite ex_engine m (Some false) w (Ok [10%Z; 5%Z]) m' w'.
Proof.
  pose (D := fun t : string => if String.eqb t "tag" then [[("id", VInt 10)]; [("id", VInt 5)]] else ex_tags t).
  pose (w := {| w_db := D; w_fate := [] |}).
  assert (L : loadable sqlite_like Sqlite ex_tag (calls_of [Add 5%Z] (ex_many 1)) D (VInt 1)).
  { split; try reflexivity; try exact I.
    - discriminate.
    - exact ex_tags_table.
    - repeat split; try reflexivity; try (now left). repeat constructor.
    - rows_have. }
  exists (calls_of [Add 5%Z] (ex_many 1)), (set_all (calls_of [Add 5%Z] (ex_many 1)) (Some [10%Z; 5%Z])), w, (after (after w D) D).
  split; [reflexivity|]. split; [reflexivity|]. split; [|reflexivity]. exists (Ok [10%Z]), (after w D). split.
  - apply (load_plain ex_tag sqlite_like ex_kw Sqlite ex_engine
      (first_query ex_tag (calls_of [Add 5%Z] (ex_many 1)) (VInt 1) (Some false)) w [[VInt 10]] [10%Z]); try reflexivity.
    + exact ex_quotes_sqlite.
    + exact ex_engine_ok.
    + exact (first_query_ok ex_tag sqlite_like Sqlite ex_engine _ _ _ (Some false) L).
    + exists [[("id", VInt 10)]]. split; [vm_compute; constructor; constructor|]. split; [repeat constructor|]. reflexivity.
  - exists (Ok [5%Z]). split; [|reflexivity].
    apply (load_plain ex_tag sqlite_like ex_kw Sqlite ex_engine
      (second_query ex_tag (calls_of [Add 5%Z] (ex_many 1))) (after w D) [[VInt 5]] [5%Z]); try reflexivity.
    + exact ex_quotes_sqlite.
    + exact ex_engine_ok.
    + exact (second_query_ok ex_tag sqlite_like Sqlite ex_engine _ _ _ L ltac:(discriminate)).
    + exists [[("id", VInt 5)]]. split; [vm_compute; constructor; constructor|]. split; [repeat constructor|]. reflexivity.
Qed.
Print Assumptions C37_order_refuted.
