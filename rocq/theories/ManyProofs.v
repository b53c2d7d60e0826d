(** Relations: saving, deleting, setting, loading. *)
From Coq Require Import Permutation.
From Verif Require Import Base SqlVal Adb Sql SqlStmt Query QuerySpec Stmt StmtSpec StmtMain StmtSem Conn ConnProofs Many ObjSpec.

Definition omapm_forall2' {A B} (f : A -> outcome B) : forall l r, omapm f l = Ok r -> Forall2 (fun a b => f a = Ok b) l r.
Proof.
  induction l as [|a l IH]; intros r; cbn [omapm].
  - intros H; inversion H. constructor.
  - destruct (f a) eqn:Ea; cbn [obind]; try discriminate. destruct (omapm f l) eqn:El; cbn [obind]; try discriminate.
    intros H; inversion H; subst. constructor; auto.
Qed.

(** The calls in order. *)
Fixpoint run_calls {T} (R : related T) (l : list (call T)) (m : many T) : outcome unit * many T :=
  match l with
  | [] => (Ok tt, m)
  | c :: r => match (match c with Add x => many_add R m x | Remove x => many_remove R m x end) with
              | (Ok _, m') => run_calls R r m'
              | x => x
              end
  end.

Section Many.
Context {T : Type}.
Variable R : related T.
Variables (d : dialect) (kw : string -> bool) (b : backend) (E : engine).
Variable gen : db -> string -> list string -> row.
Hypothesis KW : quotes_enough kw d.
Hypothesis EO : engine_ok E.

Lemma room2 : room b 2.
Proof. destruct b as [|[|]]; cbn; auto; lia. Qed.
Lemma has_cols : Forall (fun c => identifier c = true) many_columns.
Proof. repeat constructor. Qed.

(** * Adding links *)

Definition link (D : db) (t : string) (owner v : SqlVal) : row := combine many_columns [owner; v] ++ gen D t many_columns.
Definition add_links (D : db) (t : string) (owner : SqlVal) (l : list SqlVal) : db :=
  fold_left (fun D v => inserted gen D t many_columns [owner; v]) l D.

Lemma add_links_cons D t owner v l :
  add_links D t owner (v :: l) = add_links (inserted gen D t many_columns [owner; v]) t owner l.
Proof. reflexivity. Qed.
Lemma add_links_other l : forall D t owner n, n <> t -> add_links D t owner l n = D n.
Proof.
  induction l as [|v l IH]; intros D t owner n N; [reflexivity|]. rewrite add_links_cons, IH by assumption.
  unfold inserted. now rewrite with_table_other.
Qed.
Lemma partners_insert D t owner v o :
  partners E (inserted gen D t many_columns [owner; v]) t o
  = partners E D t o ++ (if same E owner o then [v] else []).
Proof.
  unfold partners, inserted. rewrite with_table_same, flat_map_app. f_equal. cbn [flat_map]. rewrite app_nil_r.
  unfold has_key, same. cbn. destruct (compare3 E CEq owner o) as [[|]|]; reflexivity.
Qed.
Lemma partners_add l : forall D t owner o,
  partners E (add_links D t owner l) t o = partners E D t o ++ (if same E owner o then l else []).
Proof.
  induction l as [|v l IH]; intros D t owner o.
  - cbn [add_links fold_left]. destruct (same E owner o); now rewrite app_nil_r.
  - rewrite add_links_cons, IH, partners_insert, <- app_assoc. f_equal. destruct (same E owner o); reflexivity.
Qed.
Lemma relation_insert D t owner v : relation_table D t -> relation_table (inserted gen D t many_columns [owner; v]) t.
Proof.
  unfold relation_table, inserted. rewrite with_table_same. intros H. apply Forall_app. split; [exact H|].
  constructor; [|constructor]. intros c Hc. cbn. destruct Hc as [<-|[<-|[]]]; auto.
Qed.
Lemma relation_add l : forall D t owner, relation_table D t -> relation_table (add_links D t owner l) t.
Proof.
  induction l as [|v l IH]; intros D t owner H; [exact H|]. rewrite add_links_cons. apply IH. now apply relation_insert.
Qed.
Lemma add_links_app D t owner l l' : add_links D t owner (l ++ l') = add_links (add_links D t owner l) t owner l'.
Proof. apply fold_left_app. Qed.

Lemma insert_new_spec t owner : identifier t = true -> forall l w,
  match insert_new d kw b E gen t owner l w with
  | (Ok _, rest, w') => rest = [] /\ w_db w' = add_links (w_db w) t owner l
  | (Err _, rest, w') => exists stored v, l = stored ++ v :: rest
      /\ (w_db w' = add_links (w_db w) t owner stored \/ w_db w' = add_links (w_db w) t owner (stored ++ [v]))
  | (Panic, _, _) => False
  end.
Proof.
  intros Ht. induction l as [|v l IH]; intros w; cbn [insert_new]; [split; reflexivity|].
  rewrite (insert_only_effect d kw b E gen KW t many_columns [owner; v] w Ht has_cols room2 eq_refl).
  unfold by_fate. destruct (next_fate w).
  - specialize (IH (after w (inserted gen (w_db w) t many_columns [owner; v]))).
    destruct (insert_new _ _ _ _ _ _ _ l _) as [[[u|e|] rest] w'].
    + destruct IH as [-> IH]. split; [reflexivity|]. rewrite IH. reflexivity.
    + destruct IH as (st & x & -> & IH). exists (v :: st), x. split; [reflexivity|].
      destruct IH as [IH|IH]; [left|right]; rewrite IH; reflexivity.
    + exact IH.
  - exists [], v. split; [reflexivity|]. now left.
  - exists [], v. split; [reflexivity|]. now right.
Qed.

(** * Removing links *)

Lemma relation_filter D t p : relation_table D t -> relation_table (with_table D t (filter p (D t))) t.
Proof.
  unfold relation_table. rewrite with_table_same, !Forall_forall. intros H r Hr. apply filter_In in Hr as [Hr _]. auto.
Qed.
Lemma has_in D t c : relation_table D t -> In c ["owner"; "has"] -> Forall (fun r : row => In c (map fst r)) (D t).
Proof. unfold relation_table. rewrite !Forall_forall. intros H Hc r Hr. now apply (H r Hr). Qed.

Lemma flat_map_filter {A B} (f : A -> list B) (p : A -> bool) l :
  flat_map f (filter p l) = flat_map (fun x => if p x then f x else []) l.
Proof. induction l as [|x l IH]; [reflexivity|]. cbn. destruct (p x); cbn; now rewrite IH. Qed.
Lemma filter_flat_map {A B} (f : A -> list B) (p : B -> bool) l :
  filter p (flat_map f l) = flat_map (fun x => filter p (f x)) l.
Proof. induction l as [|x l IH]; [reflexivity|]. cbn. now rewrite filter_app, IH. Qed.
Lemma flat_map_ext' {A B} (f g : A -> list B) l : (forall x, In x l -> f x = g x) -> flat_map f l = flat_map g l.
Proof. induction l as [|x l IH]; intros H; [reflexivity|]. cbn. rewrite H by now left. f_equal. apply IH. intros y Hy. apply H. now right. Qed.

Lemma partners_without D t removed o :
  partners E (with_table D t (filter (fun r => negb (row_matches E D t (Some (BIn "has" removed)) r)) (D t))) t o
  = without E (partners E D t o) removed.
Proof.
  unfold partners, without. rewrite with_table_same, flat_map_filter, filter_flat_map. apply flat_map_ext.
  intros r. rewrite in_matches. destruct (has_key E "owner" o r); [|now destruct (negb _)].
  destruct (field "has" r) as [x|]; [|reflexivity]. cbn. now destruct (among E x removed).
Qed.

(** * Saving *)

Definition deleted (D : db) (t : string) (removed : list SqlVal) : db :=
  match removed with
  | [] => D
  | _ => with_table D t (filter (fun r => negb (row_matches E D t (Some (BIn "has" removed)) r)) (D t))
  end.
Lemma without_nil l : without E l [] = l.
Proof. unfold without. induction l as [|x l IH]; [reflexivity|]. cbn [filter]. now rewrite IH. Qed.
Lemma partners_deleted D t removed o : partners E (deleted D t removed) t o = without E (partners E D t o) removed.
Proof. unfold deleted. destruct removed; [now rewrite without_nil|apply partners_without]. Qed.
Lemma deleted_other D t removed n : n <> t -> deleted D t removed n = D n.
Proof. intros N. unfold deleted. destruct removed; [reflexivity|now rewrite with_table_other]. Qed.
Lemma relation_deleted D t removed : relation_table D t -> relation_table (deleted D t removed) t.
Proof. unfold deleted. destruct removed; [auto|apply relation_filter]. Qed.

Lemma delete_in_effect t removed w : removed <> [] -> identifier t = true -> relation_table (w_db w) t ->
  room b (length (flat_map bound removed)) ->
  conn_delete_where d kw b E gen t (BIn "has" removed) w = by_fate w (deleted (w_db w) t removed).
Proof.
  intros NE Ht HR Hroom. rewrite (delete_where_effect d kw b E gen KW EO); try assumption.
  - unfold deleted. destruct removed; [contradiction|reflexivity].
  - exact I.
  - split; [reflexivity|]. intros; contradiction.
  - apply in_ok. apply has_in; [assumption|cbn; auto].
Qed.

(** Every way a save can end. *)
Lemma save_spec (m : many T) w owner : m_owner m = Some owner -> identifier (m_table m) = true ->
  relation_table (w_db w) (m_table m) -> room b (length (flat_map bound (m_removed m))) ->
  match many_save d kw b E gen m w with
  | (Ok _, m', w') => m' = set_pending m [] []
      /\ w_db w' = deleted (add_links (w_db w) (m_table m) owner (rev (m_new m))) (m_table m) (m_removed m)
  | (Err _, m', w') =>
      (exists stored v, m_new m = m_new m' ++ v :: rev stored /\ m' = set_pending m (m_new m') (m_removed m)
          /\ (w_db w' = add_links (w_db w) (m_table m) owner stored
              \/ w_db w' = add_links (w_db w) (m_table m) owner (stored ++ [v])))
      \/ (m_removed m <> [] /\ m' = set_pending m [] []
          /\ let D := add_links (w_db w) (m_table m) owner (rev (m_new m)) in
             (w_db w' = D \/ w_db w' = deleted D (m_table m) (m_removed m)))
  | (Panic, _, _) => False
  end.
Proof.
  intros Ho Ht HR Hroom. unfold many_save. rewrite Ho.
  pose proof (insert_new_spec (m_table m) owner Ht (rev (m_new m)) w) as HI.
  destruct (insert_new _ _ _ _ _ _ _ _ _) as [[[u|e|] rest] w1].
  - destruct HI as [-> HD]. destruct (m_removed m) as [|x l] eqn:Er.
    + split; [reflexivity|]. exact HD.
    + rewrite delete_in_effect; try assumption; [|discriminate|rewrite HD; now apply relation_add].
      unfold by_fate. destruct (next_fate w1).
      * split; [reflexivity|]. cbn [w_db after]. now rewrite HD.
      * right. split; [discriminate|]. split; [reflexivity|]. left. exact HD.
      * right. split; [discriminate|]. split; [reflexivity|]. right. cbn [w_db after]. now rewrite HD.
  - destruct HI as (stored & v & El & HD). left. exists stored, v.
    split; [|split; [reflexivity|exact HD]]. cbn [m_new set_pending].
    rewrite <- (rev_involutive (m_new m)), El, rev_app_distr. cbn. now rewrite <- app_assoc.
  - exact HI.
Qed.

(** * Calls *)

Definition keys_of (l : list T) (ks : list SqlVal) : Prop := Forall2 (fun x k => rel_key R x = Ok k) l ks.

Lemma calls_spec l : forall m m', run_calls R l m = (Ok tt, m') ->
  m_table m' = m_table m /\ m_owner m' = m_owner m
  /\ (exists ka kr, keys_of (added l) ka /\ keys_of (taken l) kr
        /\ m_new m' = m_new m ++ ka /\ m_removed m' = m_removed m ++ kr)
  /\ (l <> [] -> m_all m' = None) /\ (l = [] -> m_all m' = m_all m)
  /\ (forall x, In x (added l) -> rel_valid R x = true).
Proof.
  induction l as [|c l IH]; intros m m' H.
  - cbn in H. inversion H; subst. repeat split; try tauto; try congruence.
    + exists [], []. rewrite !app_nil_r. repeat split; constructor.
    + intros x [].
  - assert (X : exists k m1, rel_key R (match c with Add x | Remove x => x end) = Ok k
                 /\ run_calls R l m1 = (Ok tt, m')
                 /\ m_table m1 = m_table m /\ m_owner m1 = m_owner m /\ m_all m1 = None
                 /\ m_new m1 = m_new m ++ (match c with Add _ => [k] | _ => [] end)
                 /\ m_removed m1 = m_removed m ++ (match c with Remove _ => [k] | _ => [] end)
                 /\ match c with Add x => rel_valid R x = true | _ => True end).
    { cbn [run_calls] in H. destruct c as [x|x].
      - unfold many_add in H. destruct (rel_valid R x) eqn:Ev; [|discriminate].
        destruct (rel_key R x) eqn:Ek; try discriminate. do 2 eexists. split; [reflexivity|]. split; [exact H|].
        cbn. rewrite app_nil_r. auto 7.
      - unfold many_remove in H. destruct (rel_key R x) eqn:Ek; try discriminate. do 2 eexists. split; [reflexivity|].
        split; [exact H|]. cbn. rewrite app_nil_r. auto 7. }
    destruct X as (k & m1 & Hk & H1 & E1 & E2 & E3 & E4 & E5 & E6).
    destruct (IH m1 m' H1) as (I1 & I2 & (ka & kr & Ka & Kr & I3 & I4) & I5 & I6 & I7).
    split; [congruence|]. split; [congruence|]. split; [|split; [|split]].
    + destruct c as [x|x]; cbn in *.
      * exists (k :: ka), kr. split; [constructor; assumption|]. split; [assumption|].
        split; [rewrite I3, E4, <- app_assoc; reflexivity|rewrite I4, E5, app_nil_r; reflexivity].
      * exists ka, (k :: kr). split; [assumption|]. split; [constructor; assumption|].
        split; [rewrite I3, E4, app_nil_r; reflexivity|rewrite I4, E5, <- app_assoc; reflexivity].
    + intros _. destruct l; [rewrite I6; auto|apply I5; discriminate].
    + discriminate.
    + destruct c as [x|x]; cbn; [|exact I7]. intros y [<-|Hy]; auto.
Qed.

(** * Deleting and setting *)

Lemma delete_owner_effect t owner w : owner <> VNull -> identifier t = true -> reserved d "owner" = false ->
  relation_table (w_db w) t ->
  conn_delete_where d kw b E gen t (BEq "owner" (EVal owner)) w
  = by_fate w (with_table (w_db w) t (filter (fun r => negb (has_key E "owner" owner r)) (w_db w t))).
Proof.
  intros NN Ht Hres HR. rewrite (delete_where_effect d kw b E gen KW EO); try assumption.
  - f_equal. f_equal. apply filter_ext. intros r. f_equal. now apply eq_matches.
  - exact I.
  - split; [|exact I]. split; [reflexivity|exact Hres].
  - assert (length (bound_values (BEq "owner" (EVal owner))) <= 1) by (destruct owner; cbn; lia).
    destruct b as [|[|]]; cbn [room]; auto; lia.
  - apply eq_ok. apply has_in; [assumption|cbn; auto].
Qed.

Lemma partners_delete_self D t owner :
  partners E (with_table D t (filter (fun r => negb (has_key E "owner" owner r)) (D t))) t owner = [].
Proof.
  unfold partners. rewrite with_table_same, flat_map_filter. induction (D t) as [|r l IH]; [reflexivity|].
  cbn. rewrite IH. destruct (has_key E "owner" owner r); reflexivity.
Qed.
Lemma partners_delete_other D t owner o :
  (forall r, In r (D t) -> has_key E "owner" owner r = true -> has_key E "owner" o r = false) ->
  partners E (with_table D t (filter (fun r => negb (has_key E "owner" owner r)) (D t))) t o = partners E D t o.
Proof.
  intros H. unfold partners. rewrite with_table_same, flat_map_filter. apply flat_map_ext'.
  intros r Hr. specialize (H r Hr). destruct (has_key E "owner" owner r); [|reflexivity]. cbn. now rewrite H.
Qed.

Definition emptied (D : db) (t : string) (owner : SqlVal) : db :=
  with_table D t (filter (fun r => negb (has_key E "owner" owner r)) (D t)).
Lemma many_delete_spec (m : many T) w owner : m_owner m = Some owner -> owner <> VNull -> identifier (m_table m) = true ->
  reserved d "owner" = false -> relation_table (w_db w) (m_table m) ->
  many_delete d kw b E gen m w =
  match next_fate w with
  | Works => (Ok tt, set_all (set_pending m [] []) (Some []), after w (emptied (w_db w) (m_table m) owner))
  | Refused => (Err (DbError 0), m, after w (w_db w))
  | Lost => (Err (DbError 0), m, after w (emptied (w_db w) (m_table m) owner))
  end.
Proof.
  intros Ho NN Ht Hres HR. unfold many_delete. rewrite Ho, delete_owner_effect by assumption.
  unfold by_fate. now destruct (next_fate w).
Qed.

Lemma add_all_calls l : forall m, add_all R m l = run_calls R (map Add l) m.
Proof. induction l as [|x l IH]; intros m; [reflexivity|]. cbn. destruct (many_add R m x) as [[u|e|] m']; auto. Qed.
Lemma added_map (l : list T) : added (map Add l) = l.
Proof. induction l as [|x l IH]; [reflexivity|]. cbn. f_equal. exact IH. Qed.
Lemma taken_map (l : list T) : taken (map Add l) = [].
Proof. induction l as [|x l IH]; [reflexivity|]. exact IH. Qed.

(** * Loading *)

Lemma select_owner D t owner : owner <> VNull -> relation_table D t ->
  select_frames (fun f => means E D f (BEq "owner" (EVal owner))) (base_frames D t)
  = Some (map (fun r => [(t, r)]) (filter (has_key E "owner" owner) (D t))).
Proof.
  intros NN HR. unfold base_frames. pose proof (has_in D t "owner" HR (or_introl eq_refl)) as H.
  induction (D t) as [|r l IH]; [reflexivity|]. inversion H as [|? ? Hr Hl]; subst.
  cbn [map select_frames filter]. rewrite IH by assumption.
  destruct (row_field "owner" r Hr) as (x & Hx).
  assert (Em : means E D [(t, r)] (BEq "owner" (EVal owner)) = Some (compare3 E CEq x owner)).
  { transitivity (compare_col [(t, r)] "owner" (EVal owner) (compare3 E CEq)).
    - clear - NN. destruct owner; try reflexivity; congruence.
    - unfold compare_col. rewrite lookup_row, Hx. reflexivity. }
  assert (Hk : has_key E "owner" owner r = match compare3 E CEq x owner with Some true => true | _ => false end)
    by (unfold has_key; now rewrite Hx).
  rewrite Em, Hk. destruct (compare3 E CEq x owner) as [[|]|]; reflexivity.
Qed.
Lemma partner_values D t owner : relation_table D t ->
  all_some (map (fun f => lookup (None, "has") [f]) (map (fun r => [(t, r)]) (filter (has_key E "owner" owner) (D t))))
  = Some (partners E D t owner).
Proof.
  intros HR. unfold partners. pose proof (has_in D t "has" HR (or_intror (or_introl eq_refl))) as H.
  induction (D t) as [|r l IH]; [reflexivity|]. inversion H as [|? ? Hr Hl]; subst.
  cbn [filter flat_map]. destruct (has_key E "owner" owner r); [|now apply IH].
  cbn [map all_some]. rewrite lookup_row. destruct (row_field "has" r Hr) as (x & Hx). rewrite Hx.
  cbn [all_some]. rewrite IH by assumption. reflexivity.
Qed.
Lemma means_sub D f c t tc e : means E D f (BSubquery c t tc e) =
  obind2 (lookup (None, c) [f]) (fun x =>
  obind2 (select_frames (fun f' => means E D f' e) (base_frames D t)) (fun sel =>
  obind2 (all_some (map (fun f' => lookup (None, tc) [f']) sel)) (fun vs => Some (in3 E x vs)))).
Proof. reflexivity. Qed.
Lemma sub_matches D tt' c t owner r : owner <> VNull -> relation_table D t ->
  row_matches E D tt' (Some (BSubquery c t "has" (BEq "owner" (EVal owner)))) r
  = match field c r with Some x => among E x (partners E D t owner) | None => false end.
Proof.
  intros NN HR. unfold row_matches. rewrite means_sub, lookup_row. destruct (field c r) as [x|]; [|reflexivity].
  cbn [obind2]. rewrite select_owner by assumption. cbn [obind2]. rewrite partner_values by assumption.
  cbn [obind2]. pose proof (in3_among E x (partners E D t owner)) as H.
  clear - H. destruct (in3 E x _) as [[|]|]; destruct (among E x _); try reflexivity; destruct H as [H1 H2];
    first [discriminate (H1 eq_refl)|discriminate (H2 eq_refl)].
Qed.
Lemma sub_ok D tt' c t owner : owner <> VNull -> relation_table D t -> Forall (fun r : row => In c (map fst r)) (D tt') ->
  filter_ok E D tt' (Some (BSubquery c t "has" (BEq "owner" (EVal owner)))).
Proof.
  intros NN HR F r Hr. rewrite Forall_forall in F. destruct (row_field c r (F r Hr)) as (x & Hx).
  rewrite means_sub, lookup_row, Hx. cbn [obind2]. rewrite select_owner by assumption. cbn [obind2].
  rewrite partner_values by assumption. cbn [obind2]. eauto.
Qed.

(** The related model's table: every row has every column. *)
Definition rel_rows_ok (D : db) : Prop := Forall (fun r : row => incl (rel_cols R) (map fst r)) (D (rel_table R)).

Lemma columns_of_some cols (r : row) : incl cols (map fst r) -> exists vs, columns_of cols r = Some vs.
Proof.
  unfold columns_of. induction cols as [|c cols IH]; intros H; [exists []; reflexivity|].
  destruct (row_field c r) as (x & Hx); [apply H; now left|].
  destruct IH as (vs & Hv); [intros y Hy; apply H; now right|].
  exists (x :: vs). cbn [map all_some]. rewrite Hx. cbn [all_some]. now rewrite Hv.
Qed.
Lemma all_some_map {A B} (f : A -> option B) l : (forall x, In x l -> exists y, f x = Some y) ->
  exists r, all_some (map f l) = Some r.
Proof.
  induction l as [|x l IH]; intros H; [exists []; reflexivity|].
  destruct (H x (or_introl eq_refl)) as (y & Hy). destruct IH as (r & Hr); [intros z Hz; apply H; now right|].
  exists (y :: r). cbn [map all_some]. rewrite Hy. cbn [all_some]. now rewrite Hr.
Qed.
Lemma all_some_forall2 {A B} (f : A -> option B) l : forall r, all_some (map f l) = Some r -> Forall2 (fun x y => f x = Some y) l r.
Proof.
  induction l as [|x l IH]; intros r; cbn [map all_some].
  - intros H; inversion H. constructor.
  - destruct (f x) as [y|] eqn:Ey; [|discriminate]. cbn [all_some]. destruct (all_some (map f l)) as [r'|]; [|discriminate].
    intros H; inversion H; subst. constructor; auto.
Qed.
Lemma forall2_object rows out l : Forall2 (fun r vs => columns_of (rel_cols R) r = Some vs) rows out ->
  omapm (rel_of_row R) out = Ok l -> Forall2 (object_in R) rows l.
Proof.
  intros H Ho. apply omapm_forall2' in Ho. revert l Ho. induction H as [|r vs rows out Hr _ IH]; intros l Ho.
  - inversion Ho. constructor.
  - inversion Ho as [|? x ? l' Hx Hl]; subst. constructor; [|now apply IH]. exists vs. auto.
Qed.

Definition plain (x : Query) : Prop := q_limit x = None /\ q_offset x = None.
Definition query_ok (x : Query) (D : db) : Prop :=
  plain x /\ query_names_ok d x (rel_cols R) /\ room b (length (query_values x)) /\ filter_ok E D (q_table x) (q_filter x).

Lemma plain_fits x D : plain x -> fits b x (q_limit x) D.
Proof. intros [H1 H2]. destruct b; [|exact I]. intros _ H. congruence. Qed.

Lemma load_ok x w l w' : reads_sql b d -> query_ok x (w_db w) -> q_table x = rel_table R ->
  load_answers R d kw b E x w (Ok l) w' ->
  w' = after w (w_db w)
  /\ exists rows, Permutation (filter (row_matches E (w_db w) (rel_table R) (q_filter x)) (w_db w (rel_table R))) rows
     /\ StronglySorted (row_le E (q_sort x)) rows /\ Forall2 (object_in R) rows l.
Proof.
  intros RS (Pl & Qn & Rm & F) Et (q & Hq & Hr).
  assert (nonneg (q_limit x) /\ nonneg (q_offset x)) as [N1 N2] by (destruct Pl as [-> ->]; split; exact I).
  apply (query_effect d kw b E KW EO) in Hq; auto using plain_fits.
  destruct Hq as [-> Hq]. split; [reflexivity|].
  destruct (next_fate w); [|subst q; discriminate|subst q; discriminate].
  destruct Hq as [(out & -> & Hret)|[-> _]]; [|discriminate]. cbn [obind] in Hr.
  destruct Hret as (sorted & Hp & Hs & Ha). destruct Pl as [P1 P2]. rewrite P1, P2 in Ha. cbn [take drop] in Ha.
  rewrite Et in Hp. exists sorted. split; [exact Hp|]. split; [exact Hs|].
  apply (forall2_object _ out); [now apply all_some_forall2|now symmetry].
Qed.

Lemma after_untroubled w D : untroubled w -> untroubled (after w D).
Proof. unfold untroubled. cbn. destruct (w_fate w); [auto|]. intros H. now inversion H. Qed.
Lemma untroubled_next w : untroubled w -> next_fate w = Works.
Proof. unfold untroubled, next_fate. destruct (w_fate w); [auto|]. intros H. inversion H; subst. reflexivity. Qed.

(** When nothing fails and every row can be read, a query that does not sort
    always answers, and always with objects. *)
Lemma load_total x w : reads_sql b d -> query_ok x (w_db w) -> q_table x = rel_table R -> q_sort x = [] -> untroubled w ->
  rel_rows_ok (w_db w) ->
  (forall r vs, In r (w_db w (rel_table R)) -> columns_of (rel_cols R) r = Some vs -> exists o, rel_of_row R vs = Ok o) ->
  (exists l, load_answers R d kw b E x w (Ok l) (after w (w_db w)))
  /\ (forall r w', load_answers R d kw b E x w r w' -> exists l, r = Ok l).
Proof.
  intros RS (Pl & Qn & Rm & F) Et Es Ut Hcols Hread.
  assert (nonneg (q_limit x) /\ nonneg (q_offset x)) as [N1 N2] by (destruct Pl as [-> ->]; split; exact I).
  assert (Hall : forall rows, Permutation (filter (row_matches E (w_db w) (q_table x) (q_filter x)) (w_db w (q_table x))) rows ->
            exists out, all_some (map (columns_of (rel_cols R)) rows) = Some out).
  { intros rows Hp. apply all_some_map. intros r Hr. apply columns_of_some.
    apply Permutation_sym in Hp. eapply Permutation_in in Hr; [|exact Hp]. apply filter_In in Hr as [Hr _].
    rewrite Et in Hr. unfold rel_rows_ok in Hcols. rewrite Forall_forall in Hcols. now apply Hcols. }
  assert (Hread2 : forall rows out, Permutation (filter (row_matches E (w_db w) (q_table x) (q_filter x)) (w_db w (q_table x))) rows ->
            all_some (map (columns_of (rel_cols R)) rows) = Some out -> exists l, omapm (rel_of_row R) out = Ok l).
  { intros rows out Hp Ho. apply all_some_forall2 in Ho.
    assert (Hin : forall r, In r rows -> In r (w_db w (rel_table R))).
    { intros r Hr. apply Permutation_sym in Hp. eapply Permutation_in in Hr; [|exact Hp]. apply filter_In in Hr as [Hr _].
      now rewrite Et in Hr. }
    clear - Ho Hin Hread. induction Ho as [|r vs rows out Hr _ IH]; [exists []; reflexivity|].
    destruct (Hread r vs (Hin r (or_introl eq_refl)) Hr) as (o & Ho).
    destruct IH as (l & Hl); [intros z Hz; apply Hin; now right|].
    exists (o :: l). cbn [omapm]. rewrite Ho. cbn [obind]. now rewrite Hl. }
  set (rows0 := filter (row_matches E (w_db w) (q_table x) (q_filter x)) (w_db w (q_table x))) in *.
  assert (Hret0 : exists out, returns E (w_db w) x (q_limit x) (rel_cols R) out).
  { destruct (Hall rows0 (Permutation_refl _)) as (out & Ho). exists out, rows0. split; [apply Permutation_refl|].
    split; [|destruct Pl as [-> ->]; exact Ho]. rewrite Es. clear. induction rows0; constructor; auto.
    apply Forall_forall. intros; exact I. }
  split.
  - destruct Hret0 as (out & Hret). pose proof Hret as (rows & Hp & _ & Ho). destruct Pl as [P1 P2]. rewrite P1, P2 in Ho.
    destruct (Hread2 rows out Hp Ho) as (l & Hl). exists l, (Ok out). split; [|cbn [obind]; now symmetry].
    apply (query_effect d kw b E KW EO); auto; [apply plain_fits; now split|]. split; [reflexivity|].
    rewrite (untroubled_next w Ut). left. exists out. auto.
  - intros r w' (q & Hq & ->). apply (query_effect d kw b E KW EO) in Hq; auto using plain_fits.
    destruct Hq as [_ Hq]. rewrite (untroubled_next w Ut) in Hq. destruct Hq as [(out & -> & Hret)|[_ Hno]].
    + destruct Hret as (rows & Hp & _ & Ho). destruct Pl as [P1 P2]. rewrite P1, P2 in Ho. exact (Hread2 rows out Hp Ho).
    + destruct Hret0 as (out & Hret). now apply Hno in Hret.
Qed.
End Many.
