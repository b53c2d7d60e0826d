(** Rows that are written alike: conditions, keys and assignments cannot tell them apart. *)
From Coq Require Import Permutation.
From Verif Require Import Base SqlVal Sql SqlStmt Query QuerySpec Stmt StmtSpec Adb AdbSpec LiteralSpec Ddl DdlSpec
  Backend BackendSpec SqliteSem MigrateSpec SqliteData DataCalls StoredSpec RenderProofs.

Notation arow := (list (string * SqlVal)).

Definition alike (v w : SqlVal) : Prop := exists l, sqlite_write v = Ok l /\ sqlite_write w = Ok l.
Definition cells : string * SqlVal -> string * SqlVal -> Prop := fun p q => fst p = fst q /\ alike (snd p) (snd q).
Definition rel (r x : arow) : Prop := Forall2 cells r x.
Definition opt_rel {A B} (R : A -> B -> Prop) (a : option A) (b : option B) : Prop :=
  match a, b with Some x, Some y => R x y | None, None => True | _, _ => False end.

Lemma write_as_val l : sqlite_write (as_val l) = Ok l.
Proof. now destruct l. Qed.
Lemma alike_val v l : sqlite_write v = Ok l -> alike v (as_val l).
Proof. intros H. exists l. now rewrite write_as_val. Qed.
Lemma alike_refl v l : sqlite_write v = Ok l -> alike v v.
Proof. intros H. now exists l. Qed.
Lemma alike_null v w : alike v w -> is_null v = is_null w.
Proof. intros (l & A & B). destruct v, w; cbn in *; try reflexivity; congruence. Qed.
Lemma alike_bound v w : alike v w -> bound_as v = bound_as w.
Proof. intros (l & A & B). unfold bound_as. now rewrite A, B. Qed.
Lemma not_custom_alike v : ~ is_custom v -> alike v v.
Proof. intros N. destruct v; try (eexists; split; reflexivity). exfalso. apply N. now eexists _, _. Qed.

Lemma row_is_rel r x : row_is r x -> rel r (shown x).
Proof.
  induction 1 as [|p q r x [H1 H2] F IH]; [constructor|]. constructor; [|exact IH].
  split; [exact H1|]. now apply alike_val.
Qed.

Section Rel.
Variable E : engine.
Variable veq : lvalue -> lvalue -> bool.
Hypothesis CS : compares_stored E veq.

Lemma cmp_alike o v w x y : alike v w -> alike x y -> compare3 E o v x = compare3 E o w y.
Proof.
  intros A B. unfold compare3. f_equal. rewrite (cs_cmp E veq CS v x), (cs_cmp E veq CS w y).
  now rewrite (alike_bound _ _ A), (alike_bound _ _ B).
Qed.
Lemma cmp_alike_l o v w x : alike v w -> compare3 E o v x = compare3 E o w x.
Proof. intros A. unfold compare3. f_equal. rewrite (cs_cmp E veq CS v x), (cs_cmp E veq CS w x). now rewrite (alike_bound _ _ A). Qed.
Lemma like_alike v w x y : bound_as v = bound_as w -> bound_as x = bound_as y -> e_like E v x = e_like E w y.
Proof. intros A B. rewrite (cs_like E veq CS v x), (cs_like E veq CS w y). congruence. Qed.
Lemma cmp_bound o v w x y : bound_as v = bound_as w -> bound_as x = bound_as y -> compare3 E o v x = compare3 E o w y.
Proof. intros A B. unfold compare3. f_equal. rewrite (cs_cmp E veq CS v x), (cs_cmp E veq CS w y). congruence. Qed.

Lemma field_rel c r x : rel r x -> opt_rel alike (field c r) (field c x).
Proof.
  induction 1 as [|[n v] [m w] r x [H1 H2] F IH]; [exact I|]. cbn in H1, H2. subst m. cbn [field].
  destruct (String.eqb n c); [exact H2|exact IH].
Qed.
Definition tabs : string * arow -> string * arow -> Prop := fun p q => fst p = fst q /\ rel (snd p) (snd q).
Definition frames (f g : frame) : Prop := Forall2 tabs f g.
Lemma candidates_rel c f g : frames f g -> Forall2 alike (candidates c f) (candidates c g).
Proof.
  induction 1 as [|[n r] [m x] f g [H1 H2] F IH]; [constructor|]. cbn in H1, H2. subst m.
  unfold candidates in *. cbn [flat_map fst snd]. apply Forall2_app; [|exact IH].
  pose proof (field_rel (snd c) r x H2) as X.
  destruct (fst c) as [t|]; [destruct (String.eqb t n); [|constructor]|];
    destruct (field (snd c) r), (field (snd c) x); cbn in X; try contradiction; repeat constructor; assumption.
Qed.
Lemma lookup_rel c f g : frames f g -> opt_rel alike (lookup c [f]) (lookup c [g]).
Proof.
  intros F. pose proof (candidates_rel c f g F) as X. cbn [lookup].
  destruct X as [|v w l m A X]; [exact I|]. destruct X; [exact A|exact I].
Qed.

Definition dbs (D D' : Sql.db) : Prop := forall n, Forall2 rel (D n) (D' n).
Lemma base_rel D D' t : dbs D D' -> Forall2 frames (base_frames D t) (base_frames D' t).
Proof.
  intros H. unfold base_frames. specialize (H t). induction H as [|r x l m A F IH]; [constructor|].
  cbn [map]. constructor; [|exact IH]. constructor; [|constructor]. now split.
Qed.
Lemma all_some_rel {A B} (R : A -> B -> Prop) l m : Forall2 (opt_rel R) l m -> opt_rel (Forall2 R) (all_some l) (all_some m).
Proof.
  induction 1 as [|a b l m H F IH]; [constructor|]. cbn [all_some].
  destruct a as [a|], b as [b|]; cbn in H; try contradiction; [|exact I].
  destruct (all_some l), (all_some m); cbn in *; try contradiction; try exact I. now constructor.
Qed.
Lemma Forall2_map_both {A B C D} (R : A -> B -> Prop) (S : C -> D -> Prop) f g l m :
  (forall a b, R a b -> S (f a) (g b)) -> Forall2 R l m -> Forall2 S (map f l) (map g m).
Proof. intros H. induction 1; cbn; constructor; auto. Qed.
Lemma concat_rel {A B} (R : A -> B -> Prop) l m : Forall2 (Forall2 R) l m -> Forall2 R (concat l) (concat m).
Proof. induction 1; cbn; [constructor|]. now apply Forall2_app. Qed.
Lemma join_rel D D' js : dbs D D' -> forall fs gs, Forall2 frames fs gs ->
  opt_rel (Forall2 frames) (join_frames E D [] js fs) (join_frames E D' [] js gs).
Proof.
  intros HD. induction js as [|[[t a] b] js IH]; intros fs gs F; [exact F|]. cbn [join_frames].
  match goal with |- opt_rel _ (obind2 ?x _) (obind2 ?y _) => assert (X : opt_rel (Forall2 (Forall2 (Forall2 frames))) x y) end.
  { apply all_some_rel. apply (Forall2_map_both frames); [|exact F]. intros f g Hf.
    apply all_some_rel. apply (Forall2_map_both rel); [|apply HD]. intros r x Hr.
    assert (Hfx : frames (f ++ [(t, r)]) (g ++ [(t, x)])).
    { apply Forall2_app; [exact Hf|]. repeat constructor. exact Hr. }
    pose proof (lookup_rel a _ _ Hfx) as X. pose proof (lookup_rel b _ _ Hfx) as Y.
    destruct (lookup a [f ++ [(t, r)]]), (lookup a [g ++ [(t, x)]]); cbn in X; try contradiction; [|exact I].
    destruct (lookup b [f ++ [(t, r)]]), (lookup b [g ++ [(t, x)]]); cbn in Y; try contradiction; [|exact I].
    rewrite (cmp_alike CEq _ _ _ _ X Y). destruct (compare3 E CEq s0 s2) as [[|]|]; cbn; repeat constructor; assumption. }
  match goal with |- opt_rel _ (obind2 ?x _) (obind2 ?y _) => destruct x as [l|], y as [m|]; cbn in X; try contradiction; [|exact I] end.
  cbn [obind2]. apply IH. now apply concat_rel, concat_rel.
Qed.
Lemma select_rel cond cond' fs gs : (forall f g, frames f g -> cond f = cond' g) -> Forall2 frames fs gs ->
  opt_rel (Forall2 frames) (select_frames cond fs) (select_frames cond' gs).
Proof.
  intros H. induction 1 as [|f g fs gs A F IH]; [constructor|]. cbn [select_frames]. rewrite (H f g A).
  destruct (cond' g) as [[[|]|]|]; destruct (select_frames cond fs), (select_frames cond' gs); cbn in *; try contradiction; try exact I; try assumption.
  now constructor.
Qed.
Lemma in3_rel x y l m : alike x y -> Forall2 (fun v w => bound_as v = bound_as w) l m -> in3 E x l = in3 E y m.
Proof.
  intros A. induction 1 as [|v w l m H F IH]; [reflexivity|].
  change (or3 (compare3 E CEq x v) (in3 E x l) = or3 (compare3 E CEq y w) (in3 E y m)). rewrite IH. f_equal.
  apply cmp_bound; [now apply alike_bound|exact H].
Qed.
Lemma alike_bounds l m : Forall2 alike l m -> Forall2 (fun v w => bound_as v = bound_as w) l m.
Proof. induction 1; constructor; [now apply alike_bound|assumption]. Qed.
Lemma same_bounds l : Forall2 (fun v w => bound_as v = bound_as w) l l.
Proof. induction l; constructor; auto. Qed.

Lemma rhs_rel f g e : frames f g -> opt_rel (fun v w => bound_as v = bound_as w) (rhs f e) (rhs g e).
Proof.
  intros F. destruct e as [c|v| |]; try exact I; [|reflexivity]. unfold rhs.
  pose proof (lookup_rel (None, c) f g F) as X.
  destruct (lookup (None, c) [f]), (lookup (None, c) [g]); cbn [opt_rel] in *; try contradiction; try exact I. now apply alike_bound.
Qed.
Lemma compare_rel f g c e cmp : frames f g -> (forall v w x y, bound_as v = bound_as w -> bound_as x = bound_as y -> cmp v x = cmp w y) ->
  compare_col f c e cmp = compare_col g c e cmp.
Proof.
  intros F H. unfold compare_col. pose proof (lookup_rel (None, c) f g F) as X. pose proof (rhs_rel f g e F) as Y.
  destruct (lookup (None, c) [f]), (lookup (None, c) [g]); cbn [opt_rel] in X; try contradiction; [|reflexivity]. cbn [obind2].
  destruct (rhs f e), (rhs g e); cbn [opt_rel] in Y; try contradiction; [|reflexivity]. cbn [obind2]. f_equal.
  apply H; [now apply alike_bound|assumption].
Qed.

(** A condition cannot tell them apart. *)
Lemma means_rel D D' : dbs D D' -> forall e f g, frames f g -> means E D f e = means E D' g e.
Proof.
  intros HD. assert (CB := cmp_bound). assert (LB := like_alike).
  assert (NB : forall c f g (h : bool -> bool), frames f g ->
     obind2 (lookup (None, c) [f]) (fun x => Some (Some (h (is_null x)))) = obind2 (lookup (None, c) [g]) (fun x => Some (Some (h (is_null x))))).
  { intros c f g h F. pose proof (lookup_rel (None, c) f g F) as X.
    destruct (lookup (None, c) [f]), (lookup (None, c) [g]); cbn [opt_rel] in X; try contradiction; [|reflexivity].
    cbn [obind2]. now rewrite (alike_null _ _ X). }
  refine (filter_ind (fun e => forall f g, frames f g -> means E D f e = means E D' g e)
    _ _ _ _ _ _ _ _ _ _ _ _ _ _ _).
  - reflexivity.
  - intros c e _ f g F. destruct e as [c'|v| |]; [..|now apply compare_rel; auto|now apply compare_rel; auto]; [now apply compare_rel; auto|].
    destruct v; try (apply compare_rel; auto; fail). exact (NB c f g (fun b => b) F).
  - intros c e _ f g F. destruct e as [c'|v| |]; [..|now apply compare_rel; auto|now apply compare_rel; auto]; [now apply compare_rel; auto|].
    destruct v; try (apply compare_rel; auto; fail). exact (NB c f g negb F).
  - intros c e _ f g F. now apply compare_rel; auto.
  - intros c e _ f g F. now apply compare_rel; auto.
  - intros c e _ f g F. now apply compare_rel; auto.
  - intros c e _ f g F. now apply compare_rel; auto.
  - intros c e _ f g F. now apply compare_rel; auto.
  - intros l H f g F. cbn [means]. do 2 f_equal. induction H as [|e l He Hl IH]; [reflexivity|]. cbn [map]. f_equal; auto.
  - intros a b Ha Hb f g F. cbn [means]. now rewrite (Ha f g F), (Hb f g F).
  - intros a b Ha Hb f g F. cbn [means]. now rewrite (Ha f g F), (Hb f g F).
  - intros a Ha f g F. cbn [means]. now rewrite (Ha f g F).
  - intros c t tc a Ha f g F. cbn [means]. pose proof (lookup_rel (None, c) f g F) as X.
    destruct (lookup (None, c) [f]), (lookup (None, c) [g]); cbn [opt_rel] in X; try contradiction; [|reflexivity]. cbn [obind2].
    pose proof (select_rel _ _ _ _ Ha (base_rel D D' t HD)) as Y.
    destruct (select_frames _ (base_frames D t)) as [l|], (select_frames _ (base_frames D' t)) as [m|]; cbn [opt_rel] in Y; try contradiction; [|reflexivity].
    cbn [obind2].
    assert (Z : opt_rel (Forall2 alike) (all_some (map (fun f' => lookup (None, tc) [f']) l)) (all_some (map (fun f' => lookup (None, tc) [f']) m))).
    { apply all_some_rel. apply (Forall2_map_both frames); [|exact Y]. intros. now apply lookup_rel. }
    destruct (all_some (map _ l)), (all_some (map _ m)); cbn [opt_rel] in Z; try contradiction; [|reflexivity].
    cbn [obind2]. f_equal. apply in3_rel; [assumption|]. now apply alike_bounds.
  - intros c vs f g F. cbn [means]. pose proof (lookup_rel (None, c) f g F) as X.
    destruct (lookup (None, c) [f]), (lookup (None, c) [g]); cbn [opt_rel] in X; try contradiction; [|reflexivity]. cbn [obind2].
    f_equal. apply in3_rel; [assumption|apply same_bounds].
  - intros c t c2 js a Ha f g F. cbn [means]. pose proof (lookup_rel (None, c) f g F) as X.
    destruct (lookup (None, c) [f]), (lookup (None, c) [g]); cbn [opt_rel] in X; try contradiction; [|reflexivity]. cbn [obind2].
    pose proof (join_rel D D' (joins_of js) HD _ _ (base_rel D D' t HD)) as J.
    destruct (join_frames E D [] (joins_of js) (base_frames D t)) as [fs|], (join_frames E D' [] (joins_of js) (base_frames D' t)) as [gs|];
      cbn [opt_rel] in J; try contradiction; [|reflexivity]. cbn [obind2].
    pose proof (select_rel _ _ _ _ Ha J) as Y.
    destruct (select_frames _ fs) as [l|], (select_frames _ gs) as [m|]; cbn [opt_rel] in Y; try contradiction; [|reflexivity].
    cbn [obind2].
    assert (Z : opt_rel (Forall2 alike) (all_some (map (fun f' => lookup (colref_of c2) [f']) l)) (all_some (map (fun f' => lookup (colref_of c2) [f']) m))).
    { apply all_some_rel. apply (Forall2_map_both frames); [|exact Y]. intros. now apply lookup_rel. }
    destruct (all_some (map _ l)), (all_some (map _ m)); cbn [opt_rel] in Z; try contradiction; [|reflexivity].
    cbn [obind2]. f_equal. apply in3_rel; [assumption|]. now apply alike_bounds.
Qed.

Lemma matches_rel D D' t e r x : dbs D D' -> rel r x -> row_matches E D t e r = row_matches E D' t e x.
Proof.
  intros HD R. destruct e as [e|]; [|reflexivity]. unfold row_matches.
  rewrite (means_rel D D' HD e [(t, r)] [(t, x)]); [reflexivity|]. repeat constructor. exact R.
Qed.
Lemma filter_ok_rel D D' t e : dbs D D' -> filter_ok E D t e -> filter_ok E D' t e.
Proof.
  intros HD. destruct e as [e|]; [|auto]. intros H x Hx. specialize (HD t) as HT.
  assert (Y : exists r, In r (D t) /\ rel r x).
  { clear -HT Hx. induction HT as [|r y l m A F IH]; [destruct Hx|]. destruct Hx as [->|Hx]; [exists r; cbn; auto|].
    destruct (IH Hx) as (r' & I & R). exists r'. cbn. auto. }
  destruct Y as (r & I & R). destruct (H r I) as (v & Hv). exists v. rewrite <- Hv. symmetry. apply (means_rel D D' HD).
  repeat constructor. exact R.
Qed.
Lemma has_key_rel pk k r x : rel r x -> has_key E pk k r = has_key E pk k x.
Proof.
  intros R. unfold has_key. pose proof (field_rel pk r x R) as X.
  destruct (field pk r), (field pk x); cbn in X; try contradiction; [|reflexivity]. now rewrite (cmp_alike_l CEq _ _ k X).
Qed.
Lemma assign1_rel c v r x : alike v v -> rel r x -> rel (assign1 c v r) (assign1 c v x).
Proof.
  intros A. induction 1 as [|[n y] [m z] r x [H1 H2] F IH]; [constructor|]. cbn in H1, H2. subst m.
  unfold assign1 in *. cbn [map fst]. constructor; [|exact IH]. destruct (String.eqb n c); split; auto.
Qed.
Lemma assign_rel l : Forall (fun p => alike (snd p) (snd p)) l -> forall r x, rel r x -> rel (assign l r) (assign l x).
Proof.
  induction 1 as [|[c v] l A F IH]; intros r x R; [exact R|].
  change (rel (assign l (assign1 c v r)) (assign l (assign1 c v x))). apply IH. now apply assign1_rel.
Qed.
Lemma rewrite_rel p q f g l m : (forall r x, rel r x -> p r = q x) -> (forall r x, rel r x -> rel (f r) (g x)) ->
  Forall2 rel l m -> Forall2 rel (rewrite_rows p f l) (rewrite_rows q g m).
Proof.
  intros HP HF. unfold rewrite_rows. apply Forall2_map_both. intros r x R. rewrite (HP r x R). destruct (q x); auto.
Qed.
Lemma filter_rel p q l m : (forall r x, rel r x -> p r = q x) -> Forall2 rel l m -> Forall2 rel (filter p l) (filter q m).
Proof.
  intros H. induction 1 as [|r x l m R F IH]; [constructor|]. cbn. rewrite (H r x R). destruct (q x); [constructor|]; assumption.
Qed.
Lemma exists_rel p q l m : (forall r x, rel r x -> p r = q x) -> Forall2 rel l m -> existsb p l = existsb q m.
Proof. intros H. induction 1 as [|r x l m R F IH]; [reflexivity|]. cbn. now rewrite (H r x R), IH. Qed.
End Rel.
Lemma rel_names r x : rel r x -> map fst r = map fst x.
Proof. induction 1 as [|p q r x [H _] F IH]; [reflexivity|]. cbn. now rewrite H, IH. Qed.
