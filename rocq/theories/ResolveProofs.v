(** Proofs about type resolution. *)
From Verif Require Import Base SqlVal Adb AdbSpec AdbProofs ResolveSpec.

(** ** Bridges between the specification and the code's tests *)
Lemma table_pk_iff t c : table_pk t = Some c <-> primary_key t c.
Proof.
  unfold table_pk, primary_key. generalize (t_cols t) as l. induction l as [|x l IH]; cbn.
  - split; [congruence|]. intros (l1 & l2 & E & _). destruct l1; discriminate.
  - destruct (c_pk x) eqn:E.
    + split.
      * intros [= <-]. exists [], l. split; [reflexivity|]. split; [exact E|]. intros ? [].
      * intros (l1 & l2 & E1 & E2 & E3). destruct l1 as [|y l1]; cbn in E1; [congruence|].
        injection E1 as <- ->. rewrite (E3 x (or_introl eq_refl)) in E. discriminate.
    + rewrite IH. split.
      * intros (l1 & l2 & E1 & E2 & E3). exists (x :: l1), l2. cbn. rewrite E1. split; [reflexivity|].
        split; [exact E2|]. intros y [<-|Hy]; auto.
      * intros (l1 & l2 & E1 & E2 & E3). destruct l1 as [|y l1]; cbn in E1; [congruence|].
        injection E1 as <- ->. exists l1, l2. auto with datatypes.
Qed.
Lemma table_pk_none t : table_pk t = None <-> forall c, ~ primary_key t c.
Proof.
  split.
  - intros H c P. apply table_pk_iff in P. congruence.
  - intros H. destruct (table_pk t) as [c|] eqn:E; [|reflexivity]. apply table_pk_iff in E. destruct (H c E).
Qed.
Lemma substring_full s : String.substring 0 (String.length s) s = s.
Proof. induction s as [|c s IH]; cbn; [reflexivity|now rewrite IH]. Qed.
Lemma substring_tail p s : String.substring (String.length p) (String.length s) (p ++ s) = s.
Proof. induction p as [|c p IH]; cbn; [apply substring_full|exact IH]. Qed.
Lemma split_at n : forall s, n <= String.length s ->
  s = (String.substring 0 n s ++ String.substring n (String.length s - n) s)%string.
Proof.
  induction n as [|n IH]; intros s H.
  - destruct s; cbn; [reflexivity|]. rewrite substring_full. reflexivity.
  - destruct s as [|c s]; cbn in *; [lia|]. f_equal. apply IH. lia.
Qed.
Lemma ends_with_iff s suf : ends_with s suf = true <-> exists p, s = (p ++ suf)%string.
Proof.
  unfold ends_with. rewrite andb_true_iff, Nat.leb_le, String.eqb_eq. split.
  - intros [L E]. exists (String.substring 0 (String.length s - String.length suf) s).
    rewrite (split_at (String.length s - String.length suf) s) at 1 by lia. f_equal.
    rewrite <- E at 3. f_equal. lia.
  - intros [p ->]. rewrite str_app_length. split; [lia|].
    replace (String.length p + String.length suf - String.length suf) with (String.length p) by lia.
    apply substring_tail.
Qed.
Lemma many_name_iff s : ends_with s MANY_SUFFIX = true <-> many_name s.
Proof. apply ends_with_iff. Qed.
Lemma is_json_key_iff k : is_json_key k = true <-> exists s, k = CustomType s /\ json_map_type s.
Proof.
  destruct k as [s|s]; cbn [is_json_key].
  - split; [congruence|]. intros (? & ? & _); congruence.
  - rewrite existsb_exists. unfold json_map_prefixes. split.
    + intros (p & Hp & E). exists s. split; [reflexivity|]. unfold starts_with in E.
      apply prefix_true_iff in E as [rest ->]. apply in_flat_map in Hp as (m & Hm & Hp).
      apply in_map_iff in Hp as (k & <- & Hk). exists m, k, rest. split; [exact Hm|]. split; [exact Hk|].
      rewrite <- !str_app_assoc. reflexivity.
    + intros (? & [= <-] & m & k & rest & Hm & Hk & ->). exists (m ++ "<" ++ k ++ ",")%string. split.
      * apply in_flat_map. exists m. split; [exact Hm|]. apply in_map_iff. eauto.
      * replace (m ++ "<" ++ k ++ "," ++ rest)%string with ((m ++ "<" ++ k ++ ",") ++ rest)%string
          by (rewrite <- !str_app_assoc; reflexivity).
        apply prefix_app.
Qed.

(** ** References *)
Definition ref_name (d : ADB) (key : TypeKey) : outcome string :=
  match mget key (a_types d) with
  | Some (Deferred (PK n)) => Ok n
  | _ => match key with PK n => Ok n | CustomType _ => Panic end
  end.
Lemma ref_name_ok d k n : msorted (a_types d) -> ref_name d k = Ok n <-> ref_table d k n.
Proof.
  intros S. unfold ref_name, ref_table.
  assert (A : (exists m, mget k (a_types d) = Some (Deferred (PK m))) \/ forall m, ~ In (k, Deferred (PK m)) (a_types d)).
  { destruct (mget k (a_types d)) as [ty|] eqn:E.
    - destruct ty as [x|x|[m|x]]; [| |left; eauto|]; right; intros m Hm; apply (In_mget _ _ _ S) in Hm; congruence.
    - right. intros m Hm. apply (In_mget _ _ _ S) in Hm. congruence. }
  destruct A as [[m Em]|N].
  - rewrite Em. split.
    + intros [= ->]. left. apply mget_In, Em.
    + intros [H|[H _]]; [apply (In_mget _ _ _ S) in H; congruence|]. destruct (H m). apply mget_In, Em.
  - assert (E : (match mget k (a_types d) with Some (Deferred (PK n0)) => Ok n0
        | _ => match k with PK n0 => Ok n0 | CustomType _ => Panic end end) =
        match k with PK n0 => Ok n0 | CustomType _ => Panic end).
    { destruct (mget k (a_types d)) as [[x|x|[m|x]]|] eqn:E; try reflexivity. destruct (N m). apply mget_In, E. }
    rewrite E. split.
    + intros H. right. split; [exact N|]. destruct k; congruence.
    + intros [H|[_ ->]]; [destruct (N n H)|reflexivity].
Qed.
Lemma ref_name_cases d k : (exists n, ref_name d k = Ok n) \/ ref_name d k = Panic.
Proof.
  unfold ref_name. destruct (mget k (a_types d)) as [[x|x|[m|x]]|]; eauto; destruct k; eauto.
Qed.

Definition ref_col (d : ADB) (c c' : AColumn) : Prop :=
  ref_resolved d (c_ref c) (c_ref c') /\ c' = with_ref c (c_ref c').
Lemma with_ref_id c : with_ref c (c_ref c) = c.
Proof. destruct c; reflexivity. Qed.

Section Refs.
  Variable d : ADB.
  Hypothesis St : msorted (a_tables d).
  Hypothesis Sx : msorted (a_types d).
  Definition ref_shape (c : AColumn) : Prop :=
    forall ty, c_ref c = Some (RefDeferred ty) -> exists k m, ty = Deferred k /\ ref_table d k m.

  Lemma resolve_ref_ok c : ref_shape c -> exists c', resolve_ref (a_types d) (a_tables d) c = Ok c' /\ ref_col d c c'.
  Proof.
    unfold ref_shape, ref_col. intros Sh. unfold resolve_ref.
    destruct (c_ref c) as [[l|ty]|] eqn:E.
    - exists c. rewrite E. cbn. split; [reflexivity|]. split; [reflexivity|]. rewrite <- E. symmetry; apply with_ref_id.
    - destruct (Sh ty eq_refl) as (k & m & -> & R). fold (ref_name d k).
      rewrite (proj2 (ref_name_ok d k m Sx) R). cbn.
      destruct (mget m (a_tables d)) as [tb|] eqn:Et; [destruct (table_pk tb) as [pk|] eqn:Ep|].
      + eexists. split; [reflexivity|]. split; [|reflexivity]. exists k, m. split; [reflexivity|]. split; [exact R|].
        left. exists tb, pk. split; [apply mget_In, Et|]. split; [apply table_pk_iff, Ep|reflexivity].
      + exists c. split; [reflexivity|]. rewrite E. split; [|rewrite <- E; symmetry; apply with_ref_id].
        exists k, m. split; [reflexivity|]. split; [exact R|]. right. split; [reflexivity|].
        intros t x Ht. apply (In_mget _ _ _ St) in Ht. assert (t = tb) by congruence. subst.
        apply table_pk_none, Ep.
      + exists c. split; [reflexivity|]. rewrite E. split; [|rewrite <- E; symmetry; apply with_ref_id].
        exists k, m. split; [reflexivity|]. split; [exact R|]. right. split; [reflexivity|].
        intros t x Ht. apply (In_mget _ _ _ St) in Ht. congruence.
    - exists c. rewrite E. cbn. split; [reflexivity|]. split; [reflexivity|]. rewrite <- E. symmetry; apply with_ref_id.
  Qed.
  Lemma resolve_ref_panic c : resolve_ref (a_types d) (a_tables d) c = Panic \/
     (ref_shape c /\ exists c', resolve_ref (a_types d) (a_tables d) c = Ok c').
  Proof.
    assert (D : ref_shape c \/ resolve_ref (a_types d) (a_tables d) c = Panic).
    { unfold ref_shape, resolve_ref. destruct (c_ref c) as [[l|ty]|]; try (left; congruence).
      destruct ty as [x|x|k]; try (right; reflexivity). fold (ref_name d k).
      destruct (ref_name_cases d k) as [[n E]|E]; rewrite E; [left|right; reflexivity].
      intros ty [= <-]. exists k, n. split; [reflexivity|]. apply ref_name_ok; assumption. }
    destruct D as [D|D]; [right|auto]. split; [exact D|]. destruct (resolve_ref_ok c D) as (c' & -> & _). eauto.
  Qed.
  Lemma omapm_Forall2 {A B} (f : A -> outcome B) (R : A -> B -> Prop) l :
    (forall x, In x l -> exists y, f x = Ok y /\ R x y) -> exists l', omapm f l = Ok l' /\ Forall2 R l l'.
  Proof.
    induction l as [|x l IH]; cbn; intros H; [exists []; auto|].
    destruct (H x (or_introl eq_refl)) as (y & Ey & Ry). destruct IH as (l' & El & Rl); [auto|].
    exists (y :: l'). rewrite Ey. cbn. rewrite El. auto.
  Qed.
  Lemma omapm_panic {A B} (f : A -> outcome B) (P : A -> Prop) l :
    (forall x, In x l -> f x = Panic \/ (P x /\ exists y, f x = Ok y)) ->
    omapm f l = Panic \/ (Forall P l /\ exists l', omapm f l = Ok l').
  Proof.
    induction l as [|x l IH]; cbn; intros H; [right; eauto|].
    destruct (H x (or_introl eq_refl)) as [E|[Px [y E]]]; rewrite E; cbn; [auto|].
    destruct IH as [E'|[F [l' E']]]; [auto|rewrite E'; auto|]. right. split; [auto|]. rewrite E'. cbn; eauto.
  Qed.

  Definition ref_table_rel (p p' : string * ATable) : Prop :=
    fst p' = fst p /\ t_name (snd p') = t_name (snd p) /\ Forall2 (ref_col d) (t_cols (snd p)) (t_cols (snd p')).
  Definition refs_shape : Prop := forall n t c, In (n, t) (a_tables d) -> In c (t_cols t) -> ref_shape c.
  Lemma resolve_refs_ok : refs_shape -> exists ts, resolve_refs d = Ok ts /\ Forall2 ref_table_rel (a_tables d) ts.
  Proof.
    intros Sh. unfold resolve_refs. apply omapm_Forall2. intros [n t] Hin.
    destruct (omapm_Forall2 (resolve_ref (a_types d) (a_tables d)) (ref_col d) (t_cols t)) as (cols & E & F).
    { intros c Hc. apply resolve_ref_ok. eapply Sh; eassumption. }
    unfold resolve_refs_table. cbn [snd fst]. rewrite E. cbn. eexists. split; [reflexivity|].
    repeat split; assumption.
  Qed.
  Lemma resolve_refs_panic : resolve_refs d = Panic \/ (refs_shape /\ exists ts, resolve_refs d = Ok ts).
  Proof.
    unfold resolve_refs.
    destruct (omapm_panic (fun p => do t <- resolve_refs_table (a_types d) (a_tables d) (snd p); Ok (fst p, t))
       (fun p => Forall ref_shape (t_cols (snd p))) (a_tables d)) as [E|[F [l E]]].
    - intros [n t] Hin. unfold resolve_refs_table. cbn [fst snd].
      destruct (omapm_panic (resolve_ref (a_types d) (a_tables d)) ref_shape (t_cols t)) as [E|[F [l E]]].
      + intros c _. apply resolve_ref_panic.
      + rewrite E. auto.
      + rewrite E. cbn. eauto.
    - auto.
    - right. split; [|eauto]. intros n t c Hin Hc. rewrite Forall_forall in F. specialize (F _ Hin).
      rewrite Forall_forall in F. auto.
  Qed.
End Refs.

(** ** The loop, relative to a base schema [b] *)
(** A type during the loop: unchanged, or replaced by a derivable one. *)
Definition type_step (b : ADB) (ty ty' : DeferredSqlType) : Prop :=
  ty' = ty \/ exists k i, ty = Deferred k /\ ty' = KnownId i /\ derives b k i.
Definition col_step (b : ADB) (c c' : AColumn) : Prop :=
  type_step b (c_type c) (c_type c') /\ c' = with_type c (c_type c').
Definition table_step (b : ADB) (p p' : string * ATable) : Prop :=
  fst p' = fst p /\ t_name (snd p') = t_name (snd p) /\ Forall2 (col_step b) (t_cols (snd p)) (t_cols (snd p')).
Definition types_step (b : ADB) (p p' : TypeKey * DeferredSqlType) : Prop :=
  fst p' = fst p /\ type_step b (snd p) (snd p').
Definition sound (b : ADB) (r : Resolver) : Prop :=
  msorted r /\ forall k i, mget k r = Some i -> derives b k i.

Lemma with_type_id c : with_type c (c_type c) = c.
Proof. destruct c; reflexivity. Qed.
Lemma Forall2_refl {A} (R : A -> A -> Prop) l : (forall x, R x x) -> Forall2 R l l.
Proof. intros H. induction l; constructor; auto. Qed.
Lemma Forall2_trans {A} (R S T : A -> A -> Prop) l1 l2 l3 :
  (forall x y z, R x y -> S y z -> T x z) -> Forall2 R l1 l2 -> Forall2 S l2 l3 -> Forall2 T l1 l3.
Proof.
  intros H F1. revert l3; induction F1; intros l3 F2; inversion F2; subst; constructor; eauto.
Qed.
Lemma Forall2_In_l {A B} (R : A -> B -> Prop) l l' x : Forall2 R l l' -> In x l -> exists y, In y l' /\ R x y.
Proof.
  induction 1 as [|a b l l' Hab F IH]; cbn; [tauto|]. intros [->|Hx]; [eauto|].
  destruct (IH Hx) as (y & ? & ?); eauto.
Qed.
Lemma Forall2_In_r {A B} (R : A -> B -> Prop) l l' y : Forall2 R l l' -> In y l' -> exists x, In x l /\ R x y.
Proof.
  induction 1 as [|a b l l' Hab F IH]; cbn; [tauto|]. intros [->|Hx]; [eauto|].
  destruct (IH Hx) as (z & ? & ?); eauto.
Qed.
Lemma Forall2_impl {A B} (R S : A -> B -> Prop) l l' : (forall x y, R x y -> S x y) -> Forall2 R l l' -> Forall2 S l l'.
Proof. intros H. induction 1; constructor; auto. Qed.

Lemma type_step_refl b ty : type_step b ty ty.
Proof. left; reflexivity. Qed.
Lemma type_step_trans b x y z : type_step b x y -> type_step b y z -> type_step b x z.
Proof.
  intros [->|(k & i & -> & -> & D)] H; [exact H|]. destruct H as [->|(k' & i' & E & _)]; [|discriminate].
  right. eauto 6.
Qed.
Lemma col_step_refl b c : col_step b c c.
Proof. split; [apply type_step_refl|]. symmetry. apply with_type_id. Qed.
Lemma col_step_trans b x y z : col_step b x y -> col_step b y z -> col_step b x z.
Proof.
  intros [H1 E1] [H2 E2]. split; [eapply type_step_trans; eassumption|].
  rewrite E2 at 1. rewrite E1. reflexivity.
Qed.
Lemma table_step_refl b p : table_step b p p.
Proof. repeat split. apply Forall2_refl, col_step_refl. Qed.
Lemma table_step_trans b x y z : table_step b x y -> table_step b y z -> table_step b x z.
Proof.
  intros (E1 & E2 & F) (E3 & E4 & G). repeat split; try congruence.
  eapply Forall2_trans; [|exact F|exact G]. apply col_step_trans.
Qed.
Lemma types_step_trans b x y z : types_step b x y -> types_step b y z -> types_step b x z.
Proof. intros (E1 & F) (E2 & G). split; [congruence|]. eapply type_step_trans; eassumption. Qed.

Lemma find_sound b r k i : sound b r -> find_type r k = Some i -> derives b k i.
Proof.
  intros [_ S]. unfold find_type. destruct (is_json_key k) eqn:E; [|apply S].
  intros [= <-]. apply is_json_key_iff in E as (s & -> & J). constructor. exact J.
Qed.
Lemma res_insert_sound b r k i : sound b r -> derives b k i -> sound b (snd (res_insert r k i)).
Proof.
  intros [S H] D. unfold res_insert. destruct (mget k r) eqn:E; cbn; [split; assumption|].
  split; [apply mput_sorted, S|]. intros k' i'. rewrite mget_mput by exact S.
  destruct (keqb_spec k' k) as [->|]; [intros [= <-]; exact D|apply H].
Qed.
Lemma resolve_col_step b r c : sound b r -> col_step b c (snd (resolve_col r c)).
Proof.
  intros S. unfold resolve_col. destruct (c_type c) as [x|x|k] eqn:E; cbn; try apply col_step_refl.
  destruct (find_type r k) as [i|] eqn:F; cbn; [|apply col_step_refl].
  split; [|reflexivity]. cbn. right. rewrite E. exists k, i. split; [reflexivity|]. split; [reflexivity|].
  eapply find_sound; eassumption.
Qed.
Lemma pass_cols_step b r cols : sound b r -> Forall2 (col_step b) cols (snd (pass_cols r cols)).
Proof.
  intros S. cbn. induction cols as [|c cols IH]; cbn; constructor; [apply resolve_col_step, S|exact IH].
Qed.

(** The primary key of a table during the loop. *)
Lemma pk_step b t t' : Forall2 (col_step b) (t_cols t) (t_cols t') ->
  match table_pk t, table_pk t' with
  | Some c, Some c' => col_step b c c'
  | None, None => True
  | _, _ => False
  end.
Proof.
  unfold table_pk. generalize (t_cols t) (t_cols t'). induction 1 as [|c c' l l' H F IH]; cbn; [exact I|].
  assert (E : c_pk c' = c_pk c) by (rewrite (proj2 H); reflexivity). rewrite E.
  destruct (c_pk c); [exact H|exact IH].
Qed.
Lemma derives_pk b n t t' c' i : In (n, t) (a_tables b) -> Forall2 (col_step b) (t_cols t) (t_cols t') ->
  table_pk t' = Some c' -> typeid c' = Ok i -> derives b (PK (t_name t)) i.
Proof.
  intros Hin F P T. pose proof (pk_step b t t' F) as H. rewrite P in H.
  destruct (table_pk t) as [c|] eqn:E; [|tauto]. destruct H as [H _].
  apply table_pk_iff in E. unfold typeid in T. destruct H as [H|(k & j & Ek & Ej & D)].
  - eapply der_pk_known; [exact Hin|exact E|]. rewrite <- H. destruct (c_type c'); cbn; congruence.
  - rewrite Ej in T. injection T as ->. eapply der_pk_key; [exact Hin|exact E|rewrite Ek; reflexivity|exact D].
Qed.

Section Loop.
  Variable b : ADB.

  Definition pk_shape (t : ATable) : Prop := table_pk t <> None \/ ends_with (t_name t) MANY_SUFFIX = true.
  Lemma pk_shape_step t t' : t_name t' = t_name t -> Forall2 (col_step b) (t_cols t) (t_cols t') -> pk_shape t -> pk_shape t'.
  Proof.
    intros E F [H|H]; [left|right; congruence]. pose proof (pk_step b t t' F) as P.
    destruct (table_pk t); [|congruence]. destruct (table_pk t'); [congruence|tauto].
  Qed.

  Lemma pass_table_ok r n t t1 : In (n, t) (a_tables b) -> sound b r -> table_step b (n, t) (n, t1) -> pk_shape t1 ->
    exists ch r' t', pass_table r t1 = Ok (ch, r', t') /\ sound b r' /\ table_step b (n, t1) (n, t').
  Proof.
    intros Hin S (_ & En & F) Sh. cbn [snd] in En, F. unfold pass_table.
    assert (X : exists ch1 r1, (match table_pk t1 with
          | Some pk => match typeid pk with Ok ty => Ok (res_insert r (PK (t_name t1)) ty) | _ => Ok (false, r) end
          | None => if ends_with (t_name t1) MANY_SUFFIX then Ok (false, r) else Panic end) = Ok (ch1, r1) /\ sound b r1).
    { destruct (table_pk t1) as [pk|] eqn:E.
      - destruct (typeid pk) as [ty| |] eqn:T; [|eauto..].
        destruct (res_insert r (PK (t_name t1)) ty) as [ch1 r1] eqn:R. exists ch1, r1. split; [reflexivity|].
        pose proof (res_insert_sound b r (PK (t_name t1)) ty S) as RS. rewrite R in RS. apply RS.
        rewrite En. eapply derives_pk; eassumption.
      - destruct Sh as [Sh|Sh]; [congruence|]. rewrite Sh. eauto. }
    destruct X as (ch1 & r1 & -> & S1). cbn [obind].
    destruct (pass_cols r1 (t_cols t1)) as [ch2 cols] eqn:PC.
    do 3 eexists. split; [reflexivity|]. split; [exact S1|]. split; [reflexivity|]. split; [reflexivity|].
    cbn. pose proof (pass_cols_step b r1 (t_cols t1) S1) as P. rewrite PC in P. exact P.
  Qed.

  Lemma pass_tables_ok bts : (forall p, In p bts -> In p (a_tables b)) -> forall ts r,
    Forall2 (table_step b) bts ts -> sound b r -> Forall (fun p => pk_shape (snd p)) ts ->
    exists ch r' ts', pass_tables r ts = Ok (ch, r', ts') /\ sound b r' /\ Forall2 (table_step b) ts ts'.
  Proof.
    intros Hb. induction bts as [|[n t] bts IH]; intros ts r F S Sh; inversion F as [|? [n1 t1] ? ts1 H1 F1]; subst.
    - exists false, r, []. auto.
    - inversion Sh as [|? ? Sh1 Sh2]; subst. cbn [snd] in Sh1.
      assert (En : n1 = n) by apply H1. subst n1.
      destruct (pass_table_ok r n t t1) as (ch & r1 & t' & E & S1 & T1); [apply Hb; left; reflexivity|assumption..|].
      destruct (IH ltac:(auto with datatypes) ts1 r1 F1 S1 Sh2) as (ch2 & r2 & ts' & E2 & S2 & T2).
      exists (ch || ch2), r2, ((n, t') :: ts'). cbn. rewrite E. cbn. rewrite E2. cbn.
      split; [reflexivity|]. split; [exact S2|]. constructor; assumption.
  Qed.

  Lemma pass_types_ok bex : (forall p, In p bex -> In p (a_types b)) -> forall ex r,
    Forall2 (types_step b) bex ex -> sound b r ->
    forall ch r' ex', pass_types r ex = (ch, r', ex') -> sound b r' /\ Forall2 (types_step b) ex ex'.
  Proof.
    intros Hb. induction bex as [|[k ty] bex IH]; intros ex r F S; inversion F as [|? [k1 ty1] ? ex1 H1 F1]; subst; intros ch r' ex' P.
    - cbn in P. injection P as <- <- <-. auto.
    - destruct H1 as [Ek H1]. cbn [fst snd] in Ek, H1. subst k1.
      assert (Hin : In (k, ty) (a_types b)) by (apply Hb; left; reflexivity).
      cbn in P.
      assert (K : forall i, type_denotes ty1 = inl i -> derives b k i).
      { intros i D. destruct H1 as [->|(k' & j & -> & -> & D')].
        - eapply der_type_known; eassumption.
        - cbn in D. injection D as <-. eapply der_type_key; [exact Hin|reflexivity|exact D']. }
      assert (X : exists ch1 r1 ty2, (match ty1 with
        | Known t => let '(b0, r'0) := res_insert r k (TyId t) in (b0, r'0, ty1)
        | KnownId t => let '(b0, r'0) := res_insert r k t in (b0, r'0, ty1)
        | Deferred tk => match find_type r tk with Some t => (true, r, KnownId t) | None => (false, r, ty1) end
        end) = (ch1, r1, ty2) /\ sound b r1 /\ type_step b ty1 ty2).
      { destruct ty1 as [t1|t1|tk].
        - destruct (res_insert r k (TyId t1)) as [b0 r0] eqn:R. do 3 eexists. split; [reflexivity|].
          split; [|apply type_step_refl]. pose proof (res_insert_sound b r k (TyId t1) S) as RS. rewrite R in RS. apply RS, K. reflexivity.
        - destruct (res_insert r k t1) as [b0 r0] eqn:R. do 3 eexists. split; [reflexivity|].
          split; [|apply type_step_refl]. pose proof (res_insert_sound b r k t1 S) as RS. rewrite R in RS. apply RS, K. reflexivity.
        - destruct (find_type r tk) as [i|] eqn:Fi; do 3 eexists; (split; [reflexivity|]); (split; [exact S|]).
          + right. exists tk, i. split; [reflexivity|]. split; [reflexivity|]. eapply find_sound; eassumption.
          + apply type_step_refl. }
      destruct X as (ch1 & r1 & ty2 & E & S1 & T1). rewrite E in P.
      destruct (pass_types r1 ex1) as [[ch2 r2] ex2] eqn:P2.
      destruct (IH ltac:(auto with datatypes) ex1 r1 F1 S1 ch2 r2 ex2 P2) as [S2 T2].
      injection P as <- <- <-. split; [exact S2|]. constructor; [|exact T2]. split; [reflexivity|exact T1].
  Qed.

  (** ** The measure *)
  Variable K : list TypeKey.
  Definition count {A} (p : A -> bool) (l : list A) : nat := length (filter p l).
  Definition missing (r : Resolver) : nat := count (fun k => match mget k r with None => true | _ => false end) K.
  Definition unknown_col (c : AColumn) : bool := negb (is_known (c_type c)).
  Definition unknown_cols (ts : smap string ATable) : nat := count unknown_col (flat_map t_cols (mvals ts)).
  Definition unknown_types (ex : smap TypeKey DeferredSqlType) : nat := count (fun p => negb (is_known (snd p))) ex.
  Definition b2n (x : bool) : nat := if x then 1 else 0.

  Lemma count_app {A} (p : A -> bool) l1 l2 : count p (l1 ++ l2) = count p l1 + count p l2.
  Proof. unfold count. rewrite filter_app, app_length. reflexivity. Qed.
  Lemma count_cons {A} (p : A -> bool) x l : count p (x :: l) = b2n (p x) + count p l.
  Proof. unfold count; cbn. destruct (p x); reflexivity. Qed.
  Lemma count_le {A} (p q : A -> bool) l : (forall x, In x l -> p x = true -> q x = true) -> count p l <= count q l.
  Proof.
    induction l as [|x l IH]; intros H; [constructor|]. rewrite !count_cons.
    assert (b2n (p x) <= b2n (q x)).
    { specialize (H x (or_introl eq_refl)). destruct (p x), (q x); cbn; auto. discriminate (H eq_refl). }
    specialize (IH ltac:(auto with datatypes)). lia.
  Qed.
  Lemma count_lt {A} (p q : A -> bool) l x : (forall x, In x l -> p x = true -> q x = true) ->
    In x l -> p x = false -> q x = true -> count p l < count q l.
  Proof.
    induction l as [|y l IH]; intros H Hx Px Qx; [destruct Hx|]. rewrite !count_cons.
    assert (b2n (p y) <= b2n (q y)).
    { specialize (H y (or_introl eq_refl)). destruct (p y), (q y); cbn; auto. discriminate (H eq_refl). }
    destruct Hx as [->|Hx].
    - rewrite Px, Qx in *. cbn. pose proof (count_le p q l ltac:(auto with datatypes)). lia.
    - specialize (IH ltac:(auto with datatypes) Hx Px Qx). lia.
  Qed.
  Lemma count_length {A} (p : A -> bool) l : count p l <= length l.
  Proof. unfold count. induction l as [|x l IH]; cbn; [lia|]. destruct (p x); cbn; lia. Qed.

  Lemma res_insert_missing r k i ch r' : msorted r -> In k K -> res_insert r k i = (ch, r') ->
    msorted r' /\ missing r' + b2n ch <= missing r.
  Proof.
    intros S Hk. unfold res_insert. destruct (mget k r) eqn:E; intros [= <- <-]; cbn; [split; [exact S|lia]|].
    split; [apply mput_sorted, S|].
    enough (missing (mput k i r) < missing r) by lia. unfold missing. apply count_lt with (x := k).
    - intros x _. rewrite mget_mput by exact S. destruct (keqb x k); [discriminate|]. destruct (mget x r); auto.
    - exact Hk.
    - rewrite mget_mput, keqb_refl by exact S. reflexivity.
    - rewrite E. reflexivity.
  Qed.
  Lemma resolve_col_count r c : b2n (unknown_col (snd (resolve_col r c))) + b2n (fst (resolve_col r c)) <= b2n (unknown_col c).
  Proof.
    unfold resolve_col, unknown_col. destruct (c_type c) as [x|x|k] eqn:E; cbn; rewrite ?E; cbn; try lia.
    destruct (find_type r k); cbn; rewrite ?E; cbn; lia.
  Qed.
  Lemma pass_cols_count r cols ch cols' : pass_cols r cols = (ch, cols') ->
    count unknown_col cols' + b2n ch <= count unknown_col cols.
  Proof.
    unfold pass_cols. intros [= <- <-]. induction cols as [|c cols IH]; cbn [map existsb]; [cbn; lia|].
    rewrite !count_cons. pose proof (resolve_col_count r c) as H.
    destruct (fst (resolve_col r c)); cbn [orb b2n] in *; lia.
  Qed.
  Lemma pass_table_count r t ch r' t' : msorted r -> In (PK (t_name t)) K -> pass_table r t = Ok (ch, r', t') ->
    msorted r' /\ t_name t' = t_name t /\ missing r' + count unknown_col (t_cols t') + b2n ch <= missing r + count unknown_col (t_cols t).
  Proof.
    intros S Hk. unfold pass_table.
    match goal with |- obind ?m _ = _ -> _ => destruct m as [[ch1 r1]| |] eqn:E end; cbn [obind]; try discriminate.
    assert (X : msorted r1 /\ missing r1 + b2n ch1 <= missing r).
    { destruct (table_pk t) as [pk|].
      - destruct (typeid pk) as [i| |].
        + injection E as E. eapply res_insert_missing; eassumption.
        + injection E as <- <-. cbn; split; [exact S|lia].
        + injection E as <- <-. cbn; split; [exact S|lia].
      - destruct (ends_with _ _); [|discriminate]. injection E as <- <-. cbn; split; [exact S|lia]. }
    destruct X as [S1 X].
    destruct (pass_cols r1 (t_cols t)) as [ch2 cols] eqn:PC. intros [= <- <- <-].
    apply pass_cols_count in PC. cbn [t_cols t_name]. split; [exact S1|]. split; [reflexivity|].
    destruct ch1, ch2; cbn in *; lia.
  Qed.
  Lemma unknown_cols_cons n t ts : unknown_cols ((n, t) :: ts) = count unknown_col (t_cols t) + unknown_cols ts.
  Proof. unfold unknown_cols; cbn. apply count_app. Qed.
  Lemma pass_tables_count : forall ts r ch r' ts', msorted r -> (forall n t, In (n, t) ts -> In (PK (t_name t)) K) ->
    pass_tables r ts = Ok (ch, r', ts') ->
    msorted r' /\ map (fun p => t_name (snd p)) ts' = map (fun p => t_name (snd p)) ts
    /\ missing r' + unknown_cols ts' + b2n ch <= missing r + unknown_cols ts.
  Proof.
    induction ts as [|[n t] ts IH]; intros r ch r' ts' S Hk; cbn [pass_tables].
    - intros [= <- <- <-]. cbn. split; [exact S|]. split; [reflexivity|lia].
    - destruct (pass_table r t) as [[[ch1 r1] t1]| |] eqn:E1; cbn [obind]; try discriminate.
      apply pass_table_count in E1 as (S1 & En & L1); [|exact S|eapply Hk; left; reflexivity].
      destruct (pass_tables r1 ts) as [[[ch2 r2] ts2]| |] eqn:E2; cbn [obind]; try discriminate.
      apply IH in E2 as (S2 & En2 & L2); [|exact S1|intros; eapply Hk; right; eassumption].
      intros [= <- <- <-]. split; [exact S2|]. cbn [map snd]. split; [congruence|].
      rewrite !unknown_cols_cons. destruct ch1, ch2; cbn in *; lia.
  Qed.
  Lemma pass_types_count : forall ex r ch r' ex', msorted r -> (forall k ty, In (k, ty) ex -> In k K) ->
    pass_types r ex = (ch, r', ex') ->
    msorted r' /\ mkeys ex' = mkeys ex /\ missing r' + unknown_types ex' + b2n ch <= missing r + unknown_types ex.
  Proof.
    induction ex as [|[k ty] ex IH]; intros r ch r' ex' S Hk; cbn [pass_types].
    - intros [= <- <- <-]. cbn. split; [exact S|]. split; [reflexivity|lia].
    - match goal with |- match ?m with _ => _ end = _ -> _ => destruct m as [[ch1 r1] ty1] eqn:E1 end.
      assert (X : msorted r1 /\ missing r1 + b2n (negb (is_known ty1)) + b2n ch1 <= missing r + b2n (negb (is_known ty))).
      { destruct ty as [t|t|tk].
        - destruct (res_insert r k (TyId t)) as [b0 r0] eqn:R. injection E1 as <- <- <-.
          apply res_insert_missing in R as [? ?]; [|exact S|eapply Hk; left; reflexivity]. cbn. split; [assumption|lia].
        - destruct (res_insert r k t) as [b0 r0] eqn:R. injection E1 as <- <- <-.
          apply res_insert_missing in R as [? ?]; [|exact S|eapply Hk; left; reflexivity]. cbn. split; [assumption|lia].
        - destruct (find_type r tk); injection E1 as <- <- <-; cbn; split; try exact S; lia. }
      destruct X as [S1 L1].
      destruct (pass_types r1 ex) as [[ch2 r2] ex2] eqn:E2.
      apply IH in E2 as (S2 & En2 & L2); [|exact S1|intros; eapply Hk; right; eassumption].
      intros [= <- <- <-]. split; [exact S2|]. split; [unfold mkeys in *; cbn; congruence|].
      unfold unknown_types in *. rewrite !count_cons. cbn [snd]. destruct ch1, ch2; cbn in *; lia.
  Qed.
  Definition measure (r : Resolver) (d : ADB) : nat := missing r + unknown_cols (a_tables d) + unknown_types (a_types d).
  Definition keyed (d : ADB) : Prop :=
    (forall n t, In (n, t) (a_tables d) -> In (PK (t_name t)) K) /\ (forall k ty, In (k, ty) (a_types d) -> In k K).
  Lemma pass_count r d ch r' d' : msorted r -> keyed d -> pass r d = Ok (ch, r', d') ->
    msorted r' /\ keyed d' /\ measure r' d' + b2n ch <= measure r d.
  Proof.
    intros S [Kt Kx]. unfold pass.
    destruct (pass_tables r (a_tables d)) as [[[ch1 r1] ts]| |] eqn:E1; cbn [obind]; try discriminate.
    apply pass_tables_count in E1 as (S1 & En & L1); [|assumption..].
    destruct (pass_types r1 (a_types d)) as [[ch2 r2] ex] eqn:E2.
    apply pass_types_count in E2 as (S2 & Ek & L2); [|assumption..].
    intros [= <- <- <-]. split; [exact S2|]. split.
    - split; cbn.
      + intros n t Hin. apply (in_map (fun p => t_name (snd p))) in Hin. rewrite En in Hin.
        apply in_map_iff in Hin as ([m u] & E & Hin). cbn in E. rewrite <- E. eapply Kt, Hin.
      + intros k ty Hin. apply (in_map fst) in Hin. fold (mkeys ex) in Hin. rewrite Ek in Hin.
        apply in_map_iff in Hin as ([m u] & E & Hin). cbn in E. subst. eapply Kx, Hin.
    - unfold measure; cbn [a_tables a_types]. destruct ch1, ch2; cbn [orb b2n] in *; lia.
  Qed.
  Lemma loop_terminates : forall fuel r d, msorted r -> keyed d -> measure r d < fuel -> resolve_loop fuel r d <> None.
  Proof.
    induction fuel as [|fuel IH]; intros r d S Kd L; [lia|]. cbn.
    destruct (pass r d) as [[[ch r'] d']| |] eqn:E; try discriminate.
    destruct ch; [|discriminate]. apply pass_count in E as (S' & Kd' & L'); [|assumption..].
    cbn in L'. apply IH; [assumption..|lia].
  Qed.
  Lemma loop_more : forall fuel r d o fuel', resolve_loop fuel r d = Some o -> fuel <= fuel' -> resolve_loop fuel' r d = Some o.
  Proof.
    induction fuel as [|fuel IH]; intros r d o fuel' H L; [discriminate|].
    destruct fuel' as [|fuel']; [lia|]. cbn in *.
    destruct (pass r d) as [[[ch r'] d']| |]; try exact H. destruct ch; [|exact H]. apply IH; [exact H|lia].
  Qed.
End Loop.

(** ** What a pass without change means *)
Lemma res_insert_false r k i r' : res_insert r k i = (false, r') -> r' = r /\ mget k r <> None.
Proof. unfold res_insert. destruct (mget k r) eqn:E; intros [= <-]. split; congruence. Qed.
Lemma resolve_col_false r c : fst (resolve_col r c) = false ->
  snd (resolve_col r c) = c /\ forall k, c_type c = Deferred k -> find_type r k = None.
Proof.
  unfold resolve_col. destruct (c_type c) as [x|x|k]; cbn; try (intros _; split; [reflexivity|congruence]).
  destruct (find_type r k) eqn:E; cbn; [discriminate|]. intros _. split; [reflexivity|]. intros k' [= <-]. exact E.
Qed.
Lemma pass_cols_false r cols cols' : pass_cols r cols = (false, cols') ->
  cols' = cols /\ forall c k, In c cols -> c_type c = Deferred k -> find_type r k = None.
Proof.
  unfold pass_cols. intros [= H <-]. induction cols as [|c cols IH]; cbn in *; [split; [reflexivity|tauto]|].
  apply orb_false_iff in H as [H1 H2]. apply resolve_col_false in H1 as [E1 N1]. destruct (IH H2) as [E2 N2].
  split; [congruence|]. intros x k [<-|Hx]; eauto.
Qed.
Definition closed_table (r : Resolver) (t : ATable) : Prop :=
  (forall c i, table_pk t = Some c -> typeid c = Ok i -> mget (PK (t_name t)) r <> None) /\
  (forall c k, In c (t_cols t) -> c_type c = Deferred k -> find_type r k = None).
Lemma pass_table_false r t r' t' : pass_table r t = Ok (false, r', t') -> r' = r /\ t' = t /\ closed_table r t.
Proof.
  unfold pass_table.
  match goal with |- obind ?m _ = _ -> _ => destruct m as [[ch1 r1]| |] eqn:E end; cbn [obind]; try discriminate.
  destruct (pass_cols r1 (t_cols t)) as [ch2 cols] eqn:PC. intros [= H <- <-].
  apply orb_false_iff in H as [-> ->]. apply pass_cols_false in PC as [-> NC].
  assert (X : r1 = r /\ forall c i, table_pk t = Some c -> typeid c = Ok i -> mget (PK (t_name t)) r <> None).
  { destruct (table_pk t) as [pk|].
    - destruct (typeid pk) as [i| |] eqn:T.
      + injection E as E. apply res_insert_false in E as [-> N]. split; [reflexivity|]. intros c j [= <-] _; exact N.
      + injection E as <-. split; [reflexivity|]. intros c j [= <-]. congruence.
      + injection E as <-. split; [reflexivity|]. intros c j [= <-]. congruence.
    - destruct (ends_with _ _); [|discriminate]. injection E as <-. split; [reflexivity|]. congruence. }
  destruct X as [-> X]. split; [reflexivity|]. split; [destruct t; reflexivity|]. split; [exact X|exact NC].
Qed.
Lemma pass_tables_false : forall ts r r' ts', pass_tables r ts = Ok (false, r', ts') ->
  r' = r /\ ts' = ts /\ forall n t, In (n, t) ts -> closed_table r t.
Proof.
  induction ts as [|[n t] ts IH]; intros r r' ts'; cbn [pass_tables].
  - intros [= <- <-]. split; [reflexivity|]. split; [reflexivity|]. intros ? ? [].
  - destruct (pass_table r t) as [[[ch1 r1] t1]| |] eqn:E1; cbn [obind]; try discriminate.
    destruct (pass_tables r1 ts) as [[[ch2 r2] ts2]| |] eqn:E2; cbn [obind]; try discriminate.
    intros [= H <- <-]. apply orb_false_iff in H as [-> ->].
    apply pass_table_false in E1 as (-> & -> & C1). apply IH in E2 as (-> & -> & C2).
    split; [reflexivity|]. split; [reflexivity|]. intros m u [[= <- <-]|H]; eauto.
Qed.
Definition closed_type (r : Resolver) (k : TypeKey) (ty : DeferredSqlType) : Prop :=
  match type_denotes ty with inl _ => mget k r <> None | inr k' => find_type r k' = None end.
Lemma pass_types_false : forall ex r r' ex', pass_types r ex = (false, r', ex') ->
  r' = r /\ ex' = ex /\ forall k ty, In (k, ty) ex -> closed_type r k ty.
Proof.
  induction ex as [|[k ty] ex IH]; intros r r' ex'; cbn [pass_types].
  - intros [= <- <-]. split; [reflexivity|]. split; [reflexivity|]. intros ? ? [].
  - match goal with |- match ?m with _ => _ end = _ -> _ => destruct m as [[ch1 r1] ty1] eqn:E1 end.
    destruct (pass_types r1 ex) as [[ch2 r2] ex2] eqn:E2.
    intros [= H <- <-]. apply orb_false_iff in H as [-> ->].
    assert (X : r1 = r /\ ty1 = ty /\ closed_type r k ty).
    { unfold closed_type. destruct ty as [t|t|tk]; cbn.
      - destruct (res_insert r k (TyId t)) as [b0 r0] eqn:R. injection E1 as -> -> <-.
        apply res_insert_false in R. tauto.
      - destruct (res_insert r k t) as [b0 r0] eqn:R. injection E1 as -> -> <-.
        apply res_insert_false in R. tauto.
      - destruct (find_type r tk); [discriminate|]. injection E1 as <- <-. auto. }
    destruct X as (-> & -> & C1). apply IH in E2 as (-> & -> & C2).
    split; [reflexivity|]. split; [reflexivity|]. intros m u [[= <- <-]|H]; eauto.
Qed.
Definition closed (r : Resolver) (d : ADB) : Prop :=
  (forall n t, In (n, t) (a_tables d) -> closed_table r t) /\ (forall k ty, In (k, ty) (a_types d) -> closed_type r k ty).
Lemma pass_false r d r' d' : pass r d = Ok (false, r', d') -> r' = r /\ d' = d /\ closed r d.
Proof.
  unfold pass. destruct (pass_tables r (a_tables d)) as [[[ch1 r1] ts]| |] eqn:E1; cbn [obind]; try discriminate.
  destruct (pass_types r1 (a_types d)) as [[ch2 r2] ex] eqn:E2.
  intros [= H <- <-]. apply orb_false_iff in H as [-> ->].
  apply pass_tables_false in E1 as (-> & -> & C1). apply pass_types_false in E2 as (-> & -> & C2).
  split; [reflexivity|]. split; [destruct d; reflexivity|]. split; assumption.
Qed.

(** In a closed state every derivable key is found. *)
Definition state_ok (b : ADB) (r : Resolver) (d : ADB) : Prop :=
  sound b r /\ Forall2 (table_step b) (a_tables b) (a_tables d) /\ Forall2 (types_step b) (a_types b) (a_types d).
Lemma find_mget r k : mget k r <> None -> find_type r k <> None.
Proof. unfold find_type. destruct (is_json_key k); congruence. Qed.
Lemma closed_complete b r d : state_ok b r d -> closed r d -> forall k i, derives b k i -> find_type r k <> None.
Proof.
  intros (S & Ft & Fx) [Ct Cx] k i D. induction D as [s J|n t c i Hin P T|n t c k i Hin P T D IH|k ty i Hin T|k ty k' i Hin T D IH].
  - unfold find_type. rewrite (proj2 (is_json_key_iff (CustomType s))); [discriminate|eauto].
  - destruct (Forall2_In_l _ _ _ _ Ft Hin) as ([n' t'] & Hin' & (_ & En & Fc)). cbn [snd] in *.
    pose proof (pk_step b t t' Fc) as H. rewrite (proj2 (table_pk_iff t c) P) in H.
    destruct (table_pk t') as [c'|] eqn:E; [|tauto]. destruct (Ct _ _ Hin') as [C _].
    apply find_mget. rewrite <- En. destruct H as [[H|(k' & j & Ek & _)] _].
    + eapply C; [exact E|]. unfold typeid. rewrite H. destruct (c_type c); cbn in T; try discriminate; injection T as <-; reflexivity.
    + rewrite Ek in T. discriminate.
  - destruct (Forall2_In_l _ _ _ _ Ft Hin) as ([n' t'] & Hin' & (_ & En & Fc)). cbn [snd] in *.
    pose proof (pk_step b t t' Fc) as H. rewrite (proj2 (table_pk_iff t c) P) in H.
    destruct (table_pk t') as [c'|] eqn:E; [|tauto]. destruct (Ct _ _ Hin') as [C C'].
    apply find_mget. rewrite <- En. destruct H as [[H|(k' & j & _ & Ej & _)] _].
    + exfalso. apply IH. assert (Ec : c_type c' = Deferred k) by (rewrite H; destruct (c_type c); cbn in T; congruence).
      apply C' with (c := c'); [|exact Ec]. unfold table_pk in E. apply find_some in E. tauto.
    + eapply C; [exact E|]. unfold typeid. rewrite Ej. reflexivity.
  - destruct (Forall2_In_l _ _ _ _ Fx Hin) as ([k' ty'] & Hin' & (Ek & H)). cbn [fst snd] in *. subst k'.
    specialize (Cx _ _ Hin'). unfold closed_type in Cx. apply find_mget.
    destruct H as [->|(k' & j & -> & _)]; [|discriminate]. rewrite T in Cx. exact Cx.
  - destruct (Forall2_In_l _ _ _ _ Fx Hin) as ([k2 ty'] & Hin' & (Ek & H)). cbn [fst snd] in *. subst k2.
    specialize (Cx _ _ Hin'). unfold closed_type in Cx. apply find_mget.
    destruct H as [->|(k2 & j & -> & -> & _)].
    + rewrite T in Cx. contradiction.
    + cbn in Cx. exact Cx.
Qed.

(** Result of the loop. *)
Lemma loop_ok b : (forall n t, In (n, t) (a_tables b) -> pk_shape t) -> forall fuel r d, state_ok b r d ->
  forall o, resolve_loop fuel r d = Some o ->
  exists r' d', o = Ok d' /\ state_ok b r' d' /\ closed r' d'.
Proof.
  intros Sh. induction fuel as [|fuel IH]; intros r d (S & Ft & Fx) o; [discriminate|]. cbn [resolve_loop].
  destruct (pass_tables_ok b (a_tables b) (fun _ H => H) (a_tables d) r Ft S) as (ch1 & r1 & ts & E1 & S1 & F1).
  { apply Forall_forall. intros [n t] Hin. destruct (Forall2_In_r _ _ _ _ Ft Hin) as ([n' t'] & Hin' & (_ & En & Fc)).
    cbn [snd] in *. eapply pk_shape_step; [exact En|exact Fc|]. eapply Sh, Hin'. }
  destruct (pass_types r1 (a_types d)) as [[ch2 r2] ex] eqn:E2.
  destruct (pass_types_ok b (a_types b) (fun _ H => H) (a_types d) r1 Fx S1 _ _ _ E2) as [S2 F2].
  assert (E : pass r d = Ok (ch1 || ch2, r2, {| a_tables := ts; a_types := ex |})).
  { unfold pass. rewrite E1. cbn [obind]. rewrite E2. reflexivity. }
  assert (OK : state_ok b r2 {| a_tables := ts; a_types := ex |}).
  { split; [exact S2|]. cbn. split.
    - eapply Forall2_trans; [|exact Ft|exact F1]. apply table_step_trans.
    - eapply Forall2_trans; [|exact Fx|exact F2]. apply types_step_trans. }
  rewrite E. destruct (ch1 || ch2) eqn:Ech.
  - apply IH, OK.
  - intros [= <-]. apply pass_false in E as (-> & E & C). exists r. rewrite E in *. exists d. auto.
Qed.

(** ** Transport between a schema and the same schema with references resolved *)
Lemma ref_col_fields d c c' : ref_col d c c' -> c_pk c' = c_pk c /\ c_type c' = c_type c.
Proof. intros [_ ->]. auto. Qed.
Lemma pk_ref d t t' : Forall2 (ref_col d) (t_cols t) (t_cols t') ->
  match table_pk t, table_pk t' with
  | Some c, Some c' => c_type c = c_type c'
  | None, None => True
  | _, _ => False
  end.
Proof.
  unfold table_pk. generalize (t_cols t) (t_cols t'). induction 1 as [|c c' l l' H F IH]; cbn; [exact I|].
  destruct (ref_col_fields _ _ _ H) as [E1 E2]. rewrite E1. destruct (c_pk c); [congruence|exact IH].
Qed.
(** Derivability depends only on the tables' names and key types, and the extra types. *)
Lemma derives_mono a b :
  (forall n t c, In (n, t) (a_tables a) -> primary_key t c ->
     exists n' t' c', In (n', t') (a_tables b) /\ t_name t' = t_name t /\ primary_key t' c' /\ c_type c' = c_type c) ->
  (forall k ty, In (k, ty) (a_types a) -> In (k, ty) (a_types b)) ->
  forall k i, derives a k i -> derives b k i.
Proof.
  intros Ht Hx k i D. induction D as [s J|n t c i Hin P T|n t c k i Hin P T D IH|k ty i Hin T|k ty k' i Hin T D IH].
  - constructor; exact J.
  - destruct (Ht _ _ _ Hin P) as (n' & t' & c' & Hin' & En & P' & E). rewrite <- En. eapply der_pk_known; [exact Hin'|exact P'|congruence].
  - destruct (Ht _ _ _ Hin P) as (n' & t' & c' & Hin' & En & P' & E). rewrite <- En. eapply der_pk_key; [exact Hin'|exact P'| |exact IH]. congruence.
  - eapply der_type_known; [apply Hx, Hin|exact T].
  - eapply der_type_key; [apply Hx, Hin|exact T|exact IH].
Qed.
Lemma derives_refs d ts : Forall2 (ref_table_rel d) (a_tables d) ts ->
  forall k i, derives {| a_tables := ts; a_types := a_types d |} k i <-> derives d k i.
Proof.
  intros F k i. split; apply derives_mono; cbn; auto; intros n t c Hin P; apply table_pk_iff in P.
  - destruct (Forall2_In_r _ _ _ _ F Hin) as ([n' t'] & Hin' & (_ & En & Fc)). cbn [snd] in *.
    pose proof (pk_ref _ _ _ Fc) as H. rewrite P in H. destruct (table_pk t') as [c'|] eqn:E; [|tauto].
    apply table_pk_iff in E. exists n', t', c'. auto.
  - destruct (Forall2_In_l _ _ _ _ F Hin) as ([n' t'] & Hin' & (_ & En & Fc)). cbn [snd] in *.
    pose proof (pk_ref _ _ _ Fc) as H. rewrite P in H. destruct (table_pk t') as [c'|] eqn:E; [|tauto].
    apply table_pk_iff in E. exists n', t', c'. auto.
Qed.

(** ** [resolve_types] *)
Definition all_keys (d : ADB) : list TypeKey :=
  map (fun p => PK (t_name (snd p))) (a_tables d) ++ mkeys (a_types d).
Lemma keyed_all d : keyed (all_keys d) d.
Proof.
  split.
  - intros n t H. apply in_app_iff. left. apply in_map_iff. exists (n, t). auto.
  - intros k ty H. apply in_app_iff. right. apply in_map_iff. exists (k, ty). auto.
Qed.
Lemma measure_bound d : measure (all_keys d) [] d < resolve_bound d.
Proof.
  unfold measure, resolve_bound, missing, unknown_cols, unknown_types.
  match goal with |- count ?p ?l + count ?q ?m + count ?s ?t < _ =>
    pose proof (count_length p l); pose proof (count_length q m); pose proof (count_length s t) end.
  assert (length (all_keys d) = length (a_tables d) + length (a_types d))
    by (unfold all_keys, mkeys; rewrite app_length, !map_length; reflexivity). lia.
Qed.
Lemma flat_map_cols_length (ts ts' : smap string ATable) :
  Forall2 (fun p p' => length (t_cols (snd p')) = length (t_cols (snd p))) ts ts' ->
  length (flat_map t_cols (mvals ts')) = length (flat_map t_cols (mvals ts)).
Proof. unfold mvals. induction 1; cbn; [reflexivity|]. rewrite !app_length. lia. Qed.
Lemma Forall2_length' {A B} (R : A -> B -> Prop) l l' : Forall2 R l l' -> length l' = length l.
Proof. induction 1; cbn; congruence. Qed.

Lemma omapm_length {A B} (f : A -> outcome B) (R : A -> B -> Prop) : (forall x y, f x = Ok y -> R x y) ->
  forall l l', omapm f l = Ok l' -> Forall2 R l l'.
Proof.
  intros H. induction l as [|x l IH]; cbn; intros l'; [intros [= <-]; constructor|].
  destruct (f x) as [y| |] eqn:E; cbn; try discriminate.
  destruct (omapm f l) as [r| |]; cbn; try discriminate. intros [= <-]. constructor; auto.
Qed.
Lemma resolve_refs_bound d ts : resolve_refs d = Ok ts ->
  resolve_bound {| a_tables := ts; a_types := a_types d |} = resolve_bound d.
Proof.
  intros H. unfold resolve_refs in H.
  apply (omapm_length _ (fun p p' => length (t_cols (snd p')) = length (t_cols (snd p)))) in H.
  - unfold resolve_bound. cbn [a_tables a_types]. rewrite (Forall2_length' _ _ _ H), (flat_map_cols_length _ _ H). reflexivity.
  - intros [n t] p'. cbn. unfold resolve_refs_table.
    destruct (omapm _ (t_cols t)) as [cols| |] eqn:E; cbn; try discriminate. intros [= <-]. cbn.
    apply (omapm_length _ (fun _ _ => True)) in E; [|auto]. apply Forall2_length' in E. exact E.
Qed.

(** Termination: for every schema, with any amount of fuel from the bound on. *)
Lemma resolve_terminates d fuel : resolve_bound d <= fuel ->
  resolve_types_fuel fuel d = Some (resolve_types d).
Proof.
  intros L. unfold resolve_types, resolve_types_fuel.
  destruct (resolve_refs d) as [ts| |] eqn:E; [|reflexivity..].
  set (d0 := {| a_tables := ts; a_types := a_types d |}).
  destruct (resolve_loop (resolve_bound d) [] d0) as [o|] eqn:R.
  - rewrite (loop_more _ _ _ _ _ R L). destruct o; reflexivity.
  - exfalso. revert R. apply loop_terminates with (K := all_keys d0); [constructor|apply keyed_all|].
    pose proof (measure_bound d0) as H. assert (B : resolve_bound d0 = resolve_bound d) by exact (resolve_refs_bound d ts E). lia.
Qed.

Lemma first_deferred_none cols : first_deferred cols = None <-> forall c k, In c cols -> c_type c <> Deferred k.
Proof.
  unfold first_deferred. destruct (find _ cols) as [c|] eqn:E.
  - apply find_some in E as [Hin E]. destruct (c_type c) eqn:T; try discriminate.
    split; [discriminate|]. intros H. destruct (H _ _ Hin T).
  - split; [|reflexivity]. intros _ c k Hin T. apply (find_none _ _ E) in Hin. rewrite T in Hin. discriminate.
Qed.
Lemma first_deferred_some cols k : first_deferred cols = Some k -> exists c, In c cols /\ c_type c = Deferred k.
Proof.
  unfold first_deferred. destruct (find _ cols) as [c|] eqn:E; [|discriminate].
  apply find_some in E as [Hin E]. destruct (c_type c) eqn:T; try discriminate. intros [= <-]. eauto.
Qed.

Definition shape_ok (d : ADB) : Prop := refs_shape d /\ forall n t, In (n, t) (a_tables d) -> pk_shape t.
Lemma shape_iff d : shape_ok d <-> resolvable_shape d.
Proof.
  unfold shape_ok, resolvable_shape, refs_shape, ref_shape, pk_shape. split; intros [H1 H2]; split.
  - intros n t Hin. destruct (H2 n t Hin) as [H|H]; [left|right; apply many_name_iff, H].
    destruct (table_pk t) as [c|] eqn:E; [|congruence]. exists c. apply table_pk_iff, E.
  - intros n t c ty Hin Hc R. eapply H1; eassumption.
  - intros n t c Hin Hc ty R. eapply H2; eassumption.
  - intros n t Hin. destruct (H1 n t Hin) as [[c H]|H]; [left|right; apply many_name_iff, H].
    apply table_pk_iff in H. congruence.
Qed.

Lemma type_step_resolved b d r dcur ty ty' : state_ok b r dcur -> (forall k i, derives b k i <-> derives d k i) ->
  type_step b ty ty' -> (forall k, ty' = Deferred k -> find_type r k = None) ->
  closed r dcur -> type_resolved d ty ty'.
Proof.
  intros OK E H N C. unfold type_resolved. destruct H as [->|(k & i & -> & -> & D)].
  - destruct ty as [x|x|k]; auto. right. split; [reflexivity|]. intros i D. apply E in D.
    apply (closed_complete _ _ _ OK C) in D. apply D, N. reflexivity.
  - left. exists i. split; [reflexivity|]. apply E, D.
Qed.

Lemma resolve_result d : msorted (a_tables d) -> msorted (a_types d) -> shape_ok d ->
  exists d', resolve_types d = Ok (d', verify_types d') /\ schema_resolved d d'.
Proof.
  intros St Sx [Sr Sp].
  destruct (resolve_refs_ok d St Sx Sr) as (ts & E & F).
  pose proof (resolve_terminates d _ (le_n _)) as T.
  unfold resolve_types_fuel in T. rewrite E in T. set (b := {| a_tables := ts; a_types := a_types d |}) in T.
  destruct (resolve_loop (resolve_bound d) [] b) as [o|] eqn:R; [|discriminate].
  assert (OK0 : state_ok b [] b).
  { split; [split; [constructor|discriminate]|]. split; apply Forall2_refl; [apply table_step_refl|].
    intros p. split; [reflexivity|apply type_step_refl]. }
  assert (Shb : forall n t, In (n, t) (a_tables b) -> pk_shape t).
  { intros n t Hin. cbn in Hin. destruct (Forall2_In_r _ _ _ _ F Hin) as ([n' t'] & Hin' & (_ & En & Fc)). cbn [snd] in *.
    specialize (Sp _ _ Hin'). destruct Sp as [Sp|Sp]; [left|right; congruence].
    pose proof (pk_ref _ _ _ Fc) as H. destruct (table_pk t'); [|congruence]. destruct (table_pk t); [congruence|tauto]. }
  destruct (loop_ok b Shb _ _ _ OK0 _ R) as (r' & d' & -> & OK & C).
  injection T as T. exists d'. split; [symmetry; exact T|].
  assert (DE : forall k i, derives b k i <-> derives d k i) by apply (derives_refs d ts F).
  destruct OK as (S & Ft & Fx). assert (OK : state_ok b r' d') by (split; [|split]; assumption).
  split.
  - assert (Ct : forall n t, In (n, t) (a_tables d') -> closed_table r' t) by apply C.
    assert (G : Forall2 (table_step b) ts (a_tables d')) by exact Ft. clear - F G Ct OK C DE. clearbody b.
    revert G Ct. generalize (a_tables d') as ts'. induction F as [|[n t] [n1 t1] l l1 H F IH]; intros ts' G Ct;
      inversion G as [|? [n2 t2] ? l2 H2 G2]; subst; constructor.
    + destruct H as (E1 & E2 & Fc). destruct H2 as (E3 & E4 & Gc). cbn [fst snd] in *.
      split; [cbn; congruence|]. split; [cbn; congruence|]. cbn [snd].
      assert (N : forall c k, In c (t_cols t2) -> c_type c = Deferred k -> find_type r' k = None)
        by (apply (Ct n2 t2); left; reflexivity).
      revert Gc N. generalize (t_cols t2) as cs2. induction Fc as [|c c1 cs cs1 Hc Fc IHc]; intros cs2 Gc N;
        inversion Gc as [|? c2 ? cs2' Hc2 Gc2]; subst; constructor.
      * destruct Hc as [Hr Ec]. destruct Hc2 as [Hty Ec2].
        assert (X : c2 = with_type (with_ref c (c_ref c1)) (c_type c2)) by (rewrite Ec2 at 1; rewrite Ec; reflexivity).
        constructor; rewrite X; cbn; try reflexivity; [|exact Hr].
        eapply type_step_resolved; [exact OK|exact DE| | |exact C].
        -- replace (c_type c) with (c_type c1); [exact Hty|]. rewrite Ec; reflexivity.
        -- intros k Ek. eapply N; [left; reflexivity|exact Ek].
      * apply IHc; [exact Gc2|]. intros; eapply N; [right|]; eassumption.
    + apply IH; [exact G2|]. intros; eapply Ct; right; eassumption.
  - assert (Cx : forall k ty, In (k, ty) (a_types d') -> closed_type r' k ty) by apply C.
    assert (G : Forall2 (types_step b) (a_types d) (a_types d')) by exact Fx. clear - G Cx OK C DE. clearbody b.
    induction G as [|[k ty] [k' ty'] l l' [E H] G IH]; constructor.
    + cbn [fst snd] in *. split; [exact E|]. eapply type_step_resolved; [exact OK|exact DE|exact H| |exact C].
      intros k2 ->. apply (Cx k' (Deferred k2)). left; reflexivity.
    + apply IH. intros; apply Cx; right; assumption.
Qed.

Lemma resolve_panic_iff d : msorted (a_tables d) -> msorted (a_types d) ->
  resolve_types d = Panic <-> ~ resolvable_shape d.
Proof.
  intros St Sx. rewrite <- shape_iff. split.
  - intros P Sh. destruct (resolve_result d St Sx Sh) as (d' & E & _). congruence.
  - intros N. pose proof (resolve_terminates d _ (le_n _)) as T. unfold resolve_types_fuel in T.
    destruct (resolve_refs_panic d St Sx) as [E|[Sr [ts E]]]; rewrite E in T; [congruence|].
    assert (X : exists n t, In (n, t) (a_tables d) /\ table_pk t = None /\ ends_with (t_name t) MANY_SUFFIX = false).
    { assert (D : Forall (fun p => pk_shape (snd p)) (a_tables d) \/
        exists p, In p (a_tables d) /\ table_pk (snd p) = None /\ ends_with (t_name (snd p)) MANY_SUFFIX = false).
      { clear. induction (a_tables d) as [|p l IH]; [auto|].
        unfold pk_shape. destruct (table_pk (snd p)) eqn:E1; [|destruct (ends_with (t_name (snd p)) MANY_SUFFIX) eqn:E2].
        - destruct IH as [IH|(q & H & H')]; [left; constructor; [left; congruence|exact IH]|right; exists q; auto with datatypes].
        - destruct IH as [IH|(q & H & H')]; [left; constructor; [right; assumption|exact IH]|right; exists q; auto with datatypes].
        - right. exists p. auto with datatypes. }
      destruct D as [D|([n t] & H & H')]; [|exists n, t; auto].
      exfalso. apply N. split; [exact Sr|]. intros n t Hin. rewrite Forall_forall in D. apply (D _ Hin). }
    destruct X as (n & t & Hin & P & M).
    destruct (resolve_refs_ok d St Sx Sr) as (ts' & E' & F). assert (ts' = ts) by congruence. subst ts'.
    destruct (Forall2_In_l _ _ _ _ F Hin) as ([n' t'] & Hin' & (_ & En & Fc)). cbn [snd] in *.
    assert (P' : table_pk t' = None).
    { pose proof (pk_ref _ _ _ Fc) as H. rewrite P in H. destruct (table_pk t'); [tauto|reflexivity]. }
    rewrite <- En in M.
    assert (PP : forall l r, In (n', t') l -> pass_tables r l = Panic).
    { clear - P' M. induction l as [|[m u] l IH]; intros r H; [destruct H|]. destruct H as [H|H]; cbn [pass_tables].
      - injection H as -> ->. unfold pass_table. rewrite P', M. reflexivity.
      - unfold pass_table.
        match goal with |- obind (obind ?m _) _ = _ => destruct m as [[ch1 r1]| |] eqn:E1 end; cbn [obind]; [|exfalso|reflexivity].
        + destruct (pass_cols r1 (t_cols u)) as [ch2 cols]. cbn [obind]. rewrite (IH r1 H). reflexivity.
        + destruct (table_pk u) as [pk|]; [destruct (typeid pk); discriminate|]. destruct (ends_with (t_name u) MANY_SUFFIX); discriminate. }
    destruct (resolve_bound d) as [|f] eqn:B; [unfold resolve_bound in B; discriminate|].
    cbn [resolve_loop] in T. unfold pass in T. cbn [a_tables] in T. rewrite (PP _ [] Hin') in T. cbn in T. congruence.
Qed.

Lemma column_in_resolved d d' c' : schema_resolved d d' -> In c' (flat_map t_cols (mvals (a_tables d'))) ->
  exists n t c, In (n, t) (a_tables d) /\ In c (t_cols t) /\ col_resolved d c c'.
Proof.
  intros [F _] H. apply in_flat_map in H as (t' & Ht & Hc). unfold mvals in Ht. apply in_map_iff in Ht as ([n t2] & <- & Ht).
  destruct (Forall2_In_r _ _ _ _ F Ht) as ([m t] & Hin & (_ & _ & G)). cbn [snd] in *.
  destruct (Forall2_In_r _ _ _ _ G Hc) as (c & Hc' & R). eauto 6.
Qed.
Lemma column_of_resolved d d' n t c : schema_resolved d d' -> In (n, t) (a_tables d) -> In c (t_cols t) ->
  exists c', In c' (flat_map t_cols (mvals (a_tables d'))) /\ col_resolved d c c'.
Proof.
  intros [F _] Hin Hc. destruct (Forall2_In_l _ _ _ _ F Hin) as ([m t'] & Hin' & (_ & _ & G)). cbn [snd] in *.
  destruct (Forall2_In_l _ _ _ _ G Hc) as (c' & Hc' & R). exists c'. split; [|exact R].
  apply in_flat_map. exists t'. split; [|exact Hc']. unfold mvals. apply in_map_iff. exists (m, t'). auto.
Qed.
Lemma verify_result d d' : schema_resolved d d' ->
  (verify_types d' = Ok tt /\ all_derivable d) \/
  (exists n t c k, In (n, t) (a_tables d) /\ In c (t_cols t) /\ c_type c = Deferred k /\ (forall i, ~ derives d k i)
     /\ verify_types d' = Err (CannotResolveType (typekey_display k))).
Proof.
  intros R. unfold verify_types. destruct (first_deferred (flat_map t_cols (mvals (a_tables d')))) as [k|] eqn:E.
  - right. apply first_deferred_some in E as (c' & Hc' & Ek).
    destruct (column_in_resolved _ _ _ R Hc') as (n & t & c & Hin & Hc & []).
    unfold type_resolved in cr_type. destruct (c_type c) as [x|x|k'] eqn:T; try congruence.
    destruct cr_type as [(i & Ei & _)|[Ei N]]; [congruence|]. assert (k' = k) by congruence. subst k'.
    exists n, t, c, k. auto.
  - left. split; [reflexivity|]. intros n t c k Hin Hc T.
    destruct (column_of_resolved _ _ _ _ _ R Hin Hc) as (c' & Hc' & []).
    unfold type_resolved in cr_type. rewrite T in cr_type. destruct cr_type as [(i & _ & D)|[Ei _]]; [eauto|].
    rewrite first_deferred_none in E. destruct (E _ _ Hc' Ei).
Qed.

(** Derivations in the resolved schema are derivations in the original one. *)
Lemma type_resolved_known d ty ty' i : type_resolved d ty ty' -> type_denotes ty' = inl i ->
  type_denotes ty = inl i \/ exists k, type_denotes ty = inr k /\ derives d k i.
Proof.
  unfold type_resolved. destruct ty as [x|x|k]; cbn.
  - intros -> H; auto.
  - intros -> H; auto.
  - intros [(j & -> & D)|[-> _]] H; cbn in H; [|discriminate]. injection H as ->. eauto.
Qed.
Lemma type_resolved_key d ty ty' k : type_resolved d ty ty' -> type_denotes ty' = inr k -> type_denotes ty = inr k.
Proof.
  unfold type_resolved. destruct ty as [x|x|k']; cbn.
  - intros -> H; auto.
  - intros -> H; auto.
  - intros [(j & -> & D)|[-> _]] H; cbn in H; [discriminate|exact H].
Qed.
Lemma pk_resolved d t t' c' : Forall2 (col_resolved d) (t_cols t) (t_cols t') -> primary_key t' c' ->
  exists c, primary_key t c /\ col_resolved d c c'.
Proof.
  intros F P. apply table_pk_iff in P.
  assert (H : exists c, table_pk t = Some c /\ col_resolved d c c').
  { revert F P. unfold table_pk. generalize (t_cols t) (t_cols t'). induction 1 as [|c c2 l l' H F IH]; cbn; [discriminate|].
    rewrite (cr_pk _ _ _ H). destruct (c_pk c); [intros [= <-]; eauto|exact IH]. }
  destruct H as (c & H & R). apply table_pk_iff in H. eauto.
Qed.
Lemma derives_back d d' : schema_resolved d d' -> forall k i, derives d' k i -> derives d k i.
Proof.
  intros [Ft Fx] k i D.
  induction D as [s J|n t c i Hin P T|n t c k i Hin P T D IH|k ty i Hin T|k ty k' i Hin T D IH].
  - constructor; exact J.
  - destruct (Forall2_In_r _ _ _ _ Ft Hin) as ([n0 t0] & Hin0 & (_ & En & Fc)). cbn [snd] in *. rewrite En.
    destruct (pk_resolved _ _ _ _ Fc P) as (c0 & P0 & R).
    destruct (type_resolved_known _ _ _ _ (cr_type _ _ _ R) T) as [E|(k & E & D)].
    + eapply der_pk_known; eassumption.
    + eapply der_pk_key; eassumption.
  - destruct (Forall2_In_r _ _ _ _ Ft Hin) as ([n0 t0] & Hin0 & (_ & En & Fc)). cbn [snd] in *. rewrite En.
    destruct (pk_resolved _ _ _ _ Fc P) as (c0 & P0 & R).
    eapply der_pk_key; [exact Hin0|exact P0| |exact IH]. eapply type_resolved_key; [apply R|exact T].
  - destruct (Forall2_In_r _ _ _ _ Fx Hin) as ([k0 ty0] & Hin0 & (Ek & R)). cbn [fst snd] in *. subst k0.
    destruct (type_resolved_known _ _ _ _ R T) as [E|(k' & E & D)].
    + eapply der_type_known; eassumption.
    + eapply der_type_key; eassumption.
  - destruct (Forall2_In_r _ _ _ _ Fx Hin) as ([k0 ty0] & Hin0 & (Ek & R)). cbn [fst snd] in *. subst k0.
    eapply der_type_key; [exact Hin0| |exact IH]. eapply type_resolved_key; eassumption.
Qed.
Lemma type_resolved_twice d d' ty ty' ty'' : schema_resolved d d' ->
  type_resolved d ty ty' -> type_resolved d' ty' ty'' -> ty'' = ty'.
Proof.
  intros R H1 H2. unfold type_resolved in *. destruct ty as [x|x|k].
  - subst ty'. exact H2.
  - subst ty'. exact H2.
  - destruct H1 as [(i & -> & D)|[-> N]]; [exact H2|].
    destruct H2 as [(i & -> & D)|[-> _]]; [|reflexivity]. destruct (N i). eapply derives_back; eassumption.
Qed.
Lemma resolved_twice d d' d'' : schema_resolved d d' -> schema_resolved d' d'' ->
  column_types d'' = column_types d' /\ a_types d'' = a_types d'.
Proof.
  intros R1 R2. pose proof R1 as [Ft1 Fx1]. destruct R2 as [Ft2 Fx2]. split.
  - unfold column_types. revert Ft2. generalize (a_tables d'') as l''.
    induction Ft1 as [|[n t] [n1 t1] l l1 H F IH]; intros l'' G; inversion G as [|? [n2 t2] ? l2 H2 G2]; subst; cbn; [reflexivity|].
    rewrite (IH _ G2). f_equal. destruct H as (E1 & E2 & Fc), H2 as (E3 & E4 & Gc). cbn [fst snd] in *. rewrite E3, E4. f_equal.
    clear - Fc Gc R1. revert Gc. generalize (t_cols t2). induction Fc as [|c c1 cs cs1 Hc Fc IH]; intros cs2 Gc;
      inversion Gc as [|? c2 ? cs2' Hc2 Gc2]; subst; cbn; [reflexivity|]. rewrite (IH _ Gc2). f_equal.
    rewrite (cr_name _ _ _ Hc2). f_equal. eapply type_resolved_twice; [exact R1|apply Hc|apply Hc2].
  - revert Fx2. generalize (a_types d'') as l''.
    induction Fx1 as [|[k ty] [k1 ty1] l l1 [E H] F IH]; intros l'' G; inversion G as [|? [k2 ty2] ? l2 [E2 H2] G2]; subst; [reflexivity|].
    rewrite (IH _ G2). cbn [fst snd] in *. subst. f_equal. f_equal. eapply type_resolved_twice; eassumption.
Qed.

(** ** [TypeKey] codec *)
Lemma utf8_cont_byte c : utf8_cont c = byte_in 128 191 c.
Proof.
  unfold utf8_cont, byte_in. destruct (_ <=? _)%N; cbn [andb]; [|reflexivity].
  apply eq_true_iff_eq. rewrite N.ltb_lt, N.leb_le. lia.
Qed.
Lemma typekey_roundtrip k : utf8 (key_text k) = true -> typekey_de (typekey_ser k) = Ok k.
Proof.
  intros U. destruct k as [s|s]; cbn in U |- *; unfold typekey_de, split_off3; cbn; destruct s as [|c s]; cbn; try reflexivity;
    rewrite utf8_cont_byte, (utf8_head _ _ U); reflexivity.
Qed.
Lemma typekey_ser_inj a b : typekey_ser a = typekey_ser b -> a = b.
Proof. destruct a, b; cbn; intros [=]; congruence. Qed.
Lemma starts_PK rest v : split_off3 v = Ok rest -> (starts_with v "PK:" = true <-> v = ("PK:" ++ rest)%string)
  /\ (starts_with v "CT:" = true <-> v = ("CT:" ++ rest)%string).
Proof.
  unfold split_off3. destruct v as [|a [|b [|c v]]]; try discriminate. intros H.
  assert (E : v = rest) by (destruct v as [|d v]; [congruence|]; destruct (utf8_cont d); congruence). subst rest.
  unfold starts_with. split; rewrite prefix_true_iff; (split; [intros [t E]; cbn in *; congruence|intros ->; eauto]).
Qed.
Lemma typekey_de_spec v : utf8 v = true ->
  match typekey_de v with
  | Ok k => v = typekey_ser k
  | Err e => e = SerdeJson /\ forall k, v <> typekey_ser k
  | Panic => forall k, v <> typekey_ser k
  end.
Proof.
  intros U. unfold typekey_de. destruct (split_off3 v) as [rest| |] eqn:E; cbn [obind].
  - destruct (starts_PK rest v E) as [H1 H2].
    destruct (starts_with v "PK:") eqn:S1; [apply H1; reflexivity|].
    destruct (starts_with v "CT:") eqn:S2; [apply H2; reflexivity|].
    split; [reflexivity|]. intros k Ek. destruct k as [s|s]; rewrite Ek in S1, S2; unfold starts_with in *; destruct s; cbn in *; discriminate.
  - exfalso. unfold split_off3 in E. destruct v as [|a [|b [|c [|d v]]]]; try discriminate. destruct (utf8_cont d); discriminate.
  - intros k ->. assert (Uk : utf8 (key_text k) = true) by (destruct k; exact U).
    apply typekey_roundtrip in Uk. unfold typekey_de in Uk. rewrite E in Uk. discriminate.
Qed.

Lemma Forall2_keys {A B} (R : A * B -> A * B -> Prop) l l' :
  (forall p q, R p q -> fst q = fst p) -> Forall2 R l l' -> map fst l' = map fst l.
Proof. intros H. induction 1 as [|p q l l' E F IH]; cbn; [reflexivity|]. rewrite IH, (H _ _ E). reflexivity. Qed.
Lemma schema_resolved_sorted d d' : schema_resolved d d' -> msorted (a_tables d) -> msorted (a_types d) ->
  msorted (a_tables d') /\ msorted (a_types d').
Proof.
  intros [F G] St Sx. unfold msorted, mkeys in *. split.
  - rewrite (Forall2_keys _ _ _ (fun p q (H : table_resolved d p q) => proj1 H) F). exact St.
  - rewrite (Forall2_keys _ _ _ (fun p q H => proj1 H) G). exact Sx.
Qed.

Lemma resolve_success : forall d d', msorted (a_tables d) -> msorted (a_types d) -> resolvable_shape d ->
  resolve_types d = Ok (d', Ok tt) -> forall n t c, In (n, t) (a_tables d') -> In c (t_cols t) -> exists i, typeid c = Ok i.
Proof.
  intros d d' St Sx Sh H n t c Hin Hc. apply shape_iff in Sh. destruct (resolve_result d St Sx Sh) as (d1 & E & R).
  rewrite E in H. injection H as -> V.
  assert (Hf : In c (flat_map t_cols (mvals (a_tables d')))).
  { apply in_flat_map. exists t. split; [|exact Hc]. apply (in_map snd) in Hin. exact Hin. }
  unfold verify_types in V. destruct (first_deferred _) eqn:F; [discriminate|].
  rewrite first_deferred_none in F. unfold typeid. destruct (c_type c) eqn:T; eauto. destruct (F _ _ Hf T).
Qed.

Lemma resolve_frame : forall d d' res, msorted (a_tables d) -> msorted (a_types d) ->
  resolve_types d = Ok (d', res) -> schema_resolved d d'.
Proof.
  intros d d' res St Sx H.
  assert (Sh : shape_ok d \/ ~ shape_ok d).
  { destruct (resolve_panic_iff d St Sx) as [_ P]. rewrite <- shape_iff in P.
    assert (N : ~ ~ shape_ok d) by (intros N; apply P in N; congruence).
    unfold shape_ok in *. left.
    destruct (resolve_refs_panic d St Sx) as [E|[R _]].
    - exfalso. unfold resolve_types, resolve_types_fuel in H. rewrite E in H. discriminate.
    - split; [exact R|]. intros n t Hin. unfold pk_shape.
      destruct (table_pk t) eqn:E1; [left; discriminate|]. destruct (ends_with (t_name t) MANY_SUFFIX) eqn:E2; [right; reflexivity|].
      exfalso. apply N. intros [_ Q]. destruct (Q n t Hin) as [Q'|Q']; congruence. }
  destruct Sh as [Sh|Sh].
  - destruct (resolve_result d St Sx Sh) as (d1 & E & R). rewrite E in H. injection H as -> _. exact R.
  - rewrite shape_iff in Sh. apply (resolve_panic_iff d St Sx) in Sh. congruence.
Qed.

Lemma resolve_idempotent : forall d d' d'' res res', msorted (a_tables d) -> msorted (a_types d) ->
  resolve_types d = Ok (d', res) -> resolve_types d' = Ok (d'', res') ->
  column_types d'' = column_types d' /\ a_types d'' = a_types d'.
Proof.
  intros d d' d'' res res' St Sx H1 H2.
  pose proof (resolve_frame _ _ _ St Sx H1) as R1.
  destruct (schema_resolved_sorted _ _ R1 St Sx) as [St' Sx'].
  exact (resolved_twice _ _ _ R1 (resolve_frame _ _ _ St' Sx' H2)).
Qed.

Lemma resolve_references : forall d d' res n t i c, msorted (a_tables d) -> msorted (a_types d) ->
  resolve_types d = Ok (d', res) -> In (n, t) (a_tables d) -> nth_error (t_cols t) i = Some c ->
  exists t' c', get_table d' n = Some t' /\ nth_error (t_cols t') i = Some c' /\ c_name c' = c_name c /\
    (forall l, c_ref c = Some (RefLiteral l) -> c_ref c' = c_ref c) /\
    (c_ref c = None -> c_ref c' = None) /\
    (forall k target u p, c_ref c = Some (RefDeferred (Deferred k)) -> ref_table d k target ->
       In (target, u) (a_tables d) -> primary_key u p ->
       c_ref c' = Some (RefLiteral {| rl_table := target; rl_column := c_name p |})).
Proof.
  intros d d' res n t i c St Sx H Hin Hi.
  pose proof (resolve_frame _ _ _ St Sx H) as RR0. destruct (schema_resolved_sorted _ _ RR0 St Sx) as [St' _].
  destruct RR0 as [F _].
  destruct (Forall2_In_l _ _ _ _ F Hin) as ([n' t'] & Hin' & (En & _ & G)). cbn [fst snd] in *. subst n'.
  assert (X : exists c', nth_error (t_cols t') i = Some c' /\ col_resolved d c c').
  { clear - G Hi. revert i Hi. induction G as [|x y l l' R G IH]; intros [|i] Hi; cbn in *; try discriminate; eauto.
    injection Hi as <-. eauto. }
  destruct X as (c' & Hi' & R). exists t', c'. split; [apply In_mget; assumption|]. split; [exact Hi'|].
  split; [apply R|]. pose proof (cr_ref _ _ _ R) as RR.
  split; [intros l E; rewrite E in RR; cbn in RR; congruence|].
  split; [intros E; rewrite E in RR; exact RR|].
  intros k target u p E RT Hu P. rewrite E in RR. destruct RR as (k' & m & [= <-] & RT' & RR).
  assert (m = target) by (apply (ref_name_ok d k _ Sx) in RT, RT'; congruence). subst m.
  destruct RR as [(u' & p' & Hu' & P' & ->)|[_ N]].
  - assert (u' = u) by (apply (In_mget _ _ _ St) in Hu, Hu'; congruence). subst u'.
    apply table_pk_iff in P, P'. assert (p' = p) by congruence. subst. reflexivity.
  - destruct (N u p Hu P).
Qed.
