(** An engine that meets the assumptions made about Turso: values compare by
    their stored form, and a database with at most one row per table answers
    every statement without subqueries.  Example only. *)
From Coq Require Import Permutation.
From Verif Require Import Base SqlVal Sql SqlStmt Query QuerySpec Turso TursoSpec TursoProofs ParseProofs StmtProofs StmtSem.

(** * The engine *)

Definition tcmp (a b : tvalue) : option comparison :=
  match a, b with
  | TvInteger x, TvInteger y => Some (x ?= y)%Z
  | TvText x, TvText y => Some (if String.eqb x y then Eq else Lt)
  | TvBlob x, TvBlob y => Some (if String.eqb x y then Eq else Lt)
  | TvReal x, TvReal y => Some (x ?= y)%Z
  | TvNull, _ | _, TvNull => None
  | _, _ => Some Lt
  end.
Definition tord (a b : tvalue) : comparison :=
  match a, b with
  | TvNull, TvNull => Eq
  | _, _ => match tcmp a b with Some c => c | None => Lt end
  end.
Definition tlike (a b : tvalue) : option bool :=
  match a, b with TvText x, TvText y => Some (String.eqb x y) | TvNull, _ | _, TvNull => None | _, _ => Some false end.
(** NaN is kept as NULL. *)
Definition tkeep (t : tvalue) : tvalue := match t with TvReal r => if f64_is_nan r then TvNull else TvReal r | _ => t end.
Definition st (v : SqlVal) : tvalue := match sqlval_to_turso v with Ok t => tkeep t | _ => TvNull end.
Definition lite_engine : engine :=
  {| e_cmp := fun a b => tcmp (st a) (st b);
     e_like := fun a b => tlike (st a) (st b);
     e_ord := fun a b => tord (st a) (st b) |}.

Lemma st_stored v t : stored v t -> st v = tkeep t.
Proof. intros H. unfold st. apply to_turso_stored in H. now rewrite H. Qed.
Lemma lite_ok : engine_ok lite_engine.
Proof.
  split; intros; cbn; try reflexivity. now destruct (st v).
Qed.
Lemma tord_eq a b : tord a b = Eq -> a = b.
Proof.
  destruct a, b; cbn; try discriminate; intros H; try reflexivity;
    try (apply Z.compare_eq in H; congruence);
    try (destruct (String.eqb_spec s s0); [congruence|discriminate]);
    destruct (String.eqb_spec b0 b); congruence || discriminate.
Qed.
Lemma lite_alike : stores_alike lite_engine.
Proof.
  split.
  - intros x v w t Hv Hw. cbn. now rewrite (st_stored _ _ Hv), (st_stored _ _ Hw).
  - intros x v w H. cbn in *. apply tord_eq in H. now rewrite H.
  - intros v. cbn. destruct (st v); cbn; try reflexivity; try apply Z.compare_refl; now rewrite String.eqb_refl.
Qed.

(** * Evaluating with stored values *)

Definition alike (v w : SqlVal) : Prop := v = w \/ exists t, stored v t /\ stored w t.
Lemma alike_refl v : alike v v.
Proof. now left. Qed.
Lemma alike_st v w : alike v w -> st v = st w.
Proof. intros [->|(t & H1 & H2)]; [reflexivity|]. now rewrite (st_stored _ _ H1), (st_stored _ _ H2). Qed.
Lemma alike_null v w : alike v w -> is_null v = is_null w.
Proof. intros [->|(t & H1 & H2)]; [reflexivity|]. destruct H1; inversion H2; subst; reflexivity. Qed.
Lemma alike_compare o v w v' w' : alike v v' -> alike w w' -> compare3 lite_engine o v w = compare3 lite_engine o v' w'.
Proof. intros H1 H2. unfold compare3. cbn. now rewrite (alike_st _ _ H1), (alike_st _ _ H2). Qed.
Lemma alike_in v v' l l' : alike v v' -> Forall2 alike l l' -> in3 lite_engine v l = in3 lite_engine v' l'.
Proof.
  intros H. induction 1 as [|a b l l' Ha _ IH]; [reflexivity|]. unfold in3 in *. cbn [fold_right].
  now rewrite IH, (alike_compare CEq _ _ _ _ H Ha).
Qed.
(** Numbers are truth values, as in SQLite. *)
Definition truth (v : SqlVal) : option tv :=
  match v with
  | VBool b => Some (Some b)
  | VInt i | VBigInt i => Some (Some (negb (i =? 0)%Z))
  | VNull => Some None
  | _ => None
  end.
Lemma alike_truth v w t : alike v w -> to_tv v = Some t -> truth w = Some t.
Proof.
  intros [->|(u & H1 & H2)]; [now destruct w|].
  destruct H1; cbn; try discriminate; intros [= <-]; inversion H2; subst; reflexivity.
Qed.

Section Eval.
Variables (D : db) (params : list SqlVal).
Fixpoint lval (scope : list frame) (e : sexp) : option SqlVal :=
  match e with
  | SCol c => lookup c scope
  | SLit v => Some v
  | SParam n => param params n
  | SOr [x] => lval scope x
  | SOr l => obind2 (all_some (map (fun x => obind2 (lval scope x) truth) l))
                    (fun ts => Some (of_tv (or_all ts)))
  | SAnd [x] => lval scope x
  | SAnd l => obind2 (all_some (map (fun x => obind2 (lval scope x) truth) l))
                     (fun ts => Some (of_tv (and_all ts)))
  | SNot x => obind2 (obind2 (lval scope x) truth) (fun t => Some (of_tv (not3 t)))
  | SCmp o a b =>
      obind2 (lval scope a) (fun x => obind2 (lval scope b) (fun y =>
        Some (of_tv (compare3 lite_engine o x y))))
  | SLike a b =>
      obind2 (lval scope a) (fun x => obind2 (lval scope b) (fun y =>
        Some (of_tv (e_like lite_engine x y))))
  | SIsNull a => obind2 (lval scope a) (fun x => Some (VBool (is_null x)))
  | SIsNotNull a => obind2 (lval scope a) (fun x => Some (VBool (negb (is_null x))))
  | SIn a l =>
      obind2 (lval scope a) (fun x =>
        obind2 (all_some (map (lval scope) l)) (fun vs => Some (of_tv (in3 lite_engine x vs))))
  | SInSelect a dist c t js w =>
      obind2 (lval scope a) (fun x =>
      obind2 (join_frames lite_engine D scope js (base_frames D t)) (fun fs =>
      obind2 (select_frames (fun f => obind2 (lval (f :: scope) w) truth) fs) (fun sel =>
      obind2 (all_some (map (fun f => lookup c (f :: scope)) sel)) (fun vs =>
        Some (of_tv (in3 lite_engine x vs))))))
  end.
End Eval.

Section SexpInd.
Variable P : sexp -> Prop.
Hypothesis H1 : forall c, P (SCol c).
Hypothesis H2 : forall v, P (SLit v).
Hypothesis H3 : forall n, P (SParam n).
Hypothesis H4 : forall l, Forall P l -> P (SOr l).
Hypothesis H5 : forall l, Forall P l -> P (SAnd l).
Hypothesis H6 : forall e, P e -> P (SNot e).
Hypothesis H7 : forall o a b, P a -> P b -> P (SCmp o a b).
Hypothesis H8 : forall a b, P a -> P b -> P (SLike a b).
Hypothesis H9 : forall a, P a -> P (SIsNull a).
Hypothesis H10 : forall a, P a -> P (SIsNotNull a).
Hypothesis H11 : forall a l, P a -> Forall P l -> P (SIn a l).
Hypothesis H12 : forall a d c t js w, P a -> P w -> P (SInSelect a d c t js w).
Fixpoint sexp_all (e : sexp) : P e :=
  let go := fix go l : Forall P l := match l with [] => Forall_nil _ | x :: r => Forall_cons x (sexp_all x) (go r) end in
  match e with
  | SCol c => H1 c | SLit v => H2 v | SParam n => H3 n
  | SOr l => H4 l (go l) | SAnd l => H5 l (go l) | SNot e => H6 e (sexp_all e)
  | SCmp o a b => H7 o a b (sexp_all a) (sexp_all b)
  | SLike a b => H8 a b (sexp_all a) (sexp_all b)
  | SIsNull a => H9 a (sexp_all a) | SIsNotNull a => H10 a (sexp_all a)
  | SIn a l => H11 a l (sexp_all a) (go l)
  | SInSelect a d c t js w => H12 a d c t js w (sexp_all a) (sexp_all w)
  end.
End SexpInd.

Section Agree.
Variables (D : db) (V V' : list SqlVal).
Hypothesis VV : Forall2 alike V V'.
Notation agrees x := (forall scope v, sval lite_engine D V scope x = Some v -> exists v', lval D V' scope x = Some v' /\ alike v v').

Lemma nth_alike n v : nth_error V n = Some v -> exists v', nth_error V' n = Some v' /\ alike v v'.
Proof.
  clear - VV. revert n. induction VV as [|a b l l' H F IH]; intros [|n]; cbn; try discriminate.
  - intros [= <-]. eauto.
  - apply IH, F.
Qed.
Lemma truths_agree scope l ts : Forall (fun x => agrees x) l ->
  all_some (map (fun x => obind2 (sval lite_engine D V scope x) to_tv) l) = Some ts ->
  all_some (map (fun x => obind2 (lval D V' scope x) truth) l) = Some ts.
Proof.
  intros F. revert ts. induction F as [|x l Hx _ IH]; intros ts; [trivial|]. cbn [map all_some].
  destruct (sval lite_engine D V scope x) as [v|] eqn:Ev; [|discriminate]. cbn [obind2].
  destruct (to_tv v) as [t|] eqn:Et; [|discriminate].
  destruct (all_some (map (fun x => obind2 (sval lite_engine D V scope x) to_tv) l)) as [tl|]; [|discriminate].
  cbn [option_map]. intros [= <-]. destruct (Hx _ _ Ev) as (v' & -> & A). cbn [obind2]. rewrite (alike_truth _ _ _ A Et), (IH tl eq_refl). reflexivity.
Qed.
Lemma values_agree scope l vs : Forall (fun x => agrees x) l ->
  all_some (map (sval lite_engine D V scope) l) = Some vs ->
  exists vs', all_some (map (lval D V' scope) l) = Some vs' /\ Forall2 alike vs vs'.
Proof.
  intros F. revert vs. induction F as [|x l Hx _ IH]; intros vs; cbn [map all_some].
  - intros [= <-]. exists []. split; [reflexivity|constructor].
  - destruct (sval lite_engine D V scope x) as [v|] eqn:Ev; [|discriminate].
    destruct (all_some (map (sval lite_engine D V scope) l)) as [tl|]; [|discriminate]. cbn [option_map]. intros [= <-].
    destruct (Hx _ _ Ev) as (v' & -> & A). destruct (IH tl eq_refl) as (vs' & -> & A'). exists (v' :: vs'). split; [reflexivity|now constructor].
Qed.
Lemma agree x : agrees x.
Proof.
  induction x as [c|u0|n|l H|l H|x H|o a b Ha Hb|a b Ha Hb|a Ha|a Ha|a l Ha H|a ds c t js w Ha Hw] using sexp_all; intros scope v E.
  - exists v. split; [exact E|apply alike_refl].
  - exists v. split; [exact E|apply alike_refl].
  - cbn [sval lval] in *. unfold param in *. destruct (0 <? n)%Z; [|discriminate]. now apply nth_alike.
  - destruct l as [|x [|y l]].
    + cbn in *. injection E as <-. eexists. split; [reflexivity|apply alike_refl].
    + inversion H; subst. cbn [sval lval] in *. auto.
    + cbn [sval] in E. destruct (all_some _) as [ts|] eqn:Et in E; [|discriminate]. cbn [obind2] in E. injection E as <-.
      cbn [lval]. rewrite (truths_agree scope _ ts H Et). cbn [obind2]. eexists. split; [reflexivity|apply alike_refl].
  - destruct l as [|x [|y l]].
    + cbn in *. injection E as <-. eexists. split; [reflexivity|apply alike_refl].
    + inversion H; subst. cbn [sval lval] in *. auto.
    + cbn [sval] in E. destruct (all_some _) as [ts|] eqn:Et in E; [|discriminate]. cbn [obind2] in E. injection E as <-.
      cbn [lval]. rewrite (truths_agree scope _ ts H Et). cbn [obind2]. eexists. split; [reflexivity|apply alike_refl].
  - cbn [sval lval] in *. destruct (sval lite_engine D V scope x) as [u|] eqn:Eu; [|discriminate]. cbn [obind2] in E.
    destruct (to_tv u) as [t|] eqn:Et; [|discriminate]. cbn [obind2] in E. injection E as <-.
    destruct (H _ _ Eu) as (u' & -> & A). cbn [obind2]. rewrite (alike_truth _ _ _ A Et). eexists. split; [reflexivity|apply alike_refl].
  - cbn [sval lval] in *. destruct (sval lite_engine D V scope a) as [u|] eqn:Eu; [|discriminate]. cbn [obind2] in E.
    destruct (sval lite_engine D V scope b) as [w|] eqn:Ew; [|discriminate]. cbn [obind2] in E. injection E as <-.
    destruct (Ha _ _ Eu) as (u' & -> & A). destruct (Hb _ _ Ew) as (w' & -> & B). cbn [obind2]. rewrite (alike_compare o _ _ _ _ A B).
    eexists. split; [reflexivity|apply alike_refl].
  - cbn [sval lval] in *. destruct (sval lite_engine D V scope a) as [u|] eqn:Eu; [|discriminate]. cbn [obind2] in E.
    destruct (sval lite_engine D V scope b) as [w|] eqn:Ew; [|discriminate]. cbn [obind2] in E. injection E as <-.
    destruct (Ha _ _ Eu) as (u' & -> & A). destruct (Hb _ _ Ew) as (w' & -> & B). cbn [obind2 e_like lite_engine]. rewrite (alike_st _ _ A), (alike_st _ _ B).
    eexists. split; [reflexivity|apply alike_refl].
  - cbn [sval lval] in *. destruct (sval lite_engine D V scope a) as [u|] eqn:Eu; [|discriminate]. cbn [obind2] in E. injection E as <-.
    destruct (Ha _ _ Eu) as (u' & -> & A). cbn [obind2]. rewrite (alike_null _ _ A). eexists. split; [reflexivity|apply alike_refl].
  - cbn [sval lval] in *. destruct (sval lite_engine D V scope a) as [u|] eqn:Eu; [|discriminate]. cbn [obind2] in E. injection E as <-.
    destruct (Ha _ _ Eu) as (u' & -> & A). cbn [obind2]. rewrite (alike_null _ _ A). eexists. split; [reflexivity|apply alike_refl].
  - cbn [sval lval] in *. destruct (sval lite_engine D V scope a) as [u|] eqn:Eu; [|discriminate]. cbn [obind2] in E.
    destruct (all_some (map (sval lite_engine D V scope) l)) as [vs|] eqn:Ev; [|discriminate]. cbn [obind2] in E. injection E as <-.
    destruct (Ha _ _ Eu) as (u' & -> & A). destruct (values_agree scope l vs H Ev) as (vs' & -> & B). cbn [obind2].
    rewrite (alike_in _ _ _ _ A B). eexists. split; [reflexivity|apply alike_refl].
  - cbn [sval lval] in *. destruct (sval lite_engine D V scope a) as [u|] eqn:Eu; [|discriminate]. cbn [obind2] in E.
    destruct (join_frames lite_engine D scope js (base_frames D t)) as [fs|]; [|discriminate]. cbn [obind2] in *.
    destruct (select_frames (fun f => obind2 (sval lite_engine D V (f :: scope) w) to_tv) fs) as [sel|] eqn:Es; [|discriminate]. cbn [obind2] in E.
    destruct (all_some (map (fun f => lookup c (f :: scope)) sel)) as [vs|] eqn:Ev; [|discriminate]. cbn [obind2] in E. injection E as <-.
    destruct (Ha _ _ Eu) as (u' & -> & A). cbn [obind2].
    rewrite (select_frames_ext _ (fun f => obind2 (lval D V' (f :: scope) w) truth) fs sel) with (2 := Es).
    + cbn [obind2]. rewrite Ev. cbn [obind2]. rewrite (alike_in u u' vs vs A); [eexists; split; [reflexivity|apply alike_refl]|].
      clear. induction vs; constructor; [apply alike_refl|assumption].
    + intros f t0 M. destruct (sval lite_engine D V (f :: scope) w) as [x|] eqn:Ex; [|discriminate]. cbn [obind2] in M.
      destruct (Hw _ _ Ex) as (x' & -> & B). cbn [obind2]. now apply (alike_truth x).
Qed.
End Agree.

(** * A database with at most one row per table *)

Section Small.
Variable d : dialect.
Variable D : db.
Hypothesis small : forall t, List.length (D t) <= 1.

Lemma all_some_length {A} (l : list (option A)) r : all_some l = Some r -> List.length r = List.length l.
Proof.
  revert r. induction l as [|[a|] l IH]; intros r; cbn; try discriminate; [now intros [= <-]|].
  destruct (all_some l) as [x|]; [|discriminate]. cbn. intros [= <-]. cbn. now rewrite (IH x eq_refl).
Qed.
Lemma join_small E js : forall fs out, List.length fs <= 1 -> join_frames E D [] js fs = Some out -> List.length out <= 1.
Proof.
  induction js as [|[[t a] b] js IH]; intros fs out L; cbn [join_frames]; [now intros [= <-]|].
  destruct (all_some _) as [l|] eqn:El; [|discriminate]. cbn [obind2]. intros H. apply IH in H; [exact H|]. clear H.
  destruct fs as [|f [|g fs]]; cbn in L; [|clear L|lia].
  - cbn in El. injection El as <-. cbn. lia.
  - cbn [map all_some] in El. destruct (all_some _) as [m|] eqn:Em in El; [|discriminate]. cbn in El. injection El as <-. cbn [concat]. rewrite app_nil_r.
    specialize (small t). destruct (D t) as [|r [|r' rs]]; cbn in small; [|clear small|lia].
    + cbn in Em. injection Em as <-. cbn. lia.
    + cbn [map all_some] in Em. match type of Em with context [match ?x with Some _ => _ | None => _ end] => destruct x as [y|] eqn:Ey end; [|discriminate].
      cbn in Em. injection Em as <-. cbn [concat]. rewrite app_nil_r.
      repeat match type of Ey with context [match ?x with _ => _ end] => destruct x end; try discriminate; injection Ey as <-; cbn; lia.
Qed.
Lemma select_small c fs out : List.length fs <= 1 -> select_frames c fs = Some out -> List.length out <= 1.
Proof.
  destruct fs as [|f [|g fs]]; cbn; intros L; [now intros [= <-]| |lia].
  destruct (c f) as [[[|]|]|]; intros H; try discriminate; injection H as <-; cbn; lia.
Qed.

Definition small_select (V : list SqlVal) (s : select) : option (list (list SqlVal)) :=
  obind2 (join_frames lite_engine D [] (sel_joins s) (base_frames D (sel_table s))) (fun fs =>
  obind2 (match sel_where s with
          | None => Some fs
          | Some w => select_frames (fun f => obind2 (lval D V [f] w) truth) fs
          end) (fun sel =>
  obind2 (window d (sel_limit s) (sel_offset s) sel) (fun win => project (sel_cols s) win))).
(** Remembers nothing; refuses what it cannot read and statements with a subquery. *)
Definition small_query (c : unit) (s : string) (ps : list tvalue) : outcome (list (list tvalue)) * unit :=
  if Nat.ltb 1 (selects s) then (Err (Internal "subquery"), tt) else
  match parse_stmt d s with
  | Some (Select sel) =>
      match small_select (map turso_value_to_sqlval_untyped ps) sel with
      | Some out => match collect_all (collect_all sqlval_to_turso) out with
                    | Ok rows => (Ok rows, tt)
                    | _ => (Err (Internal "value"), tt)
                    end
      | None => (Err (Internal "statement"), tt)
      end
  | _ => (Err (Internal "statement"), tt)
  end.
Hypothesis stored_rows : forall t r c v, In r (D t) -> In (c, v) r -> exists u, stored v u.

Definition frame_stored (f : frame) : Prop := forall t r c v, In (t, r) f -> In (c, v) r -> exists u, stored v u.
Lemma base_stored t : Forall frame_stored (base_frames D t).
Proof.
  apply Forall_forall. intros f H. apply in_map_iff in H as (r & <- & Hr). intros t' r' c v [[= <- <-]|[]] Hv. eapply stored_rows; eauto.
Qed.
Lemma in_all_some {A} (l : list (option A)) r x : all_some l = Some r -> In x r -> In (Some x) l.
Proof.
  revert r. induction l as [|[a|] l IH]; intros r; cbn; try discriminate; [now intros [= <-]|].
  destruct (all_some l) as [y|]; [|discriminate]. cbn. intros [= <-] [->|H]; [now left|right; eauto].
Qed.
Lemma join_stored E js : forall fs out, Forall frame_stored fs -> join_frames E D [] js fs = Some out -> Forall frame_stored out.
Proof.
  induction js as [|[[t a] b] js IH]; intros fs out F; cbn [join_frames]; [now intros [= <-]|].
  destruct (all_some _) as [l|] eqn:El; [|discriminate]. cbn [obind2]. intros H. apply IH in H; [exact H|]. clear H.
  apply Forall_forall. intros f H. apply in_concat in H as (fl & H & Hf). apply in_concat in H as (m & Hm & Hfl).
  apply (in_all_some _ _ _ El) in Hm. apply in_map_iff in Hm as (g & Eg & Hg). apply (in_all_some _ _ _ Eg) in Hfl.
  apply in_map_iff in Hfl as (r & Er & Hr). rewrite Forall_forall in F. specialize (F g Hg).
  assert (f = g ++ [(t, r)]) as ->.
  { cbv zeta in Er. destruct (lookup a [g ++ [(t, r)]]); [|discriminate]. destruct (lookup b [g ++ [(t, r)]]); [|discriminate]. destruct (compare3 _ _ _ _) as [[|]|]; injection Er as <-; try contradiction; destruct Hf as [<-|[]]; reflexivity. }
  intros t' r' c v Hin Hv. apply in_app_iff in Hin as [Hin|[[= <- <-]|[]]]; [eapply F; eauto|eapply stored_rows; eauto].
Qed.
Lemma select_incl c fs out : select_frames c fs = Some out -> incl out fs.
Proof.
  revert out. induction fs as [|f fs IH]; intros out; cbn; [intros [= <-]; apply incl_refl|].
  destruct (c f) as [[[|]|]|]; destruct (select_frames c fs) as [l|]; try discriminate; intros [= <-] x Hx;
    try (right; now apply (IH l eq_refl)). destruct Hx as [<-|Hx]; [now left|right; now apply (IH l eq_refl)].
Qed.
Lemma field_in c r v : field c r = Some v -> In (c, v) r.
Proof.
  induction r as [|[n x] r IH]; cbn; [discriminate|]. destruct (String.eqb_spec n c) as [->|]; [intros [= ->]; now left|right; auto].
Qed.
Lemma candidates_stored c f v : frame_stored f -> In v (candidates c f) -> exists u, stored v u.
Proof.
  intros F H. unfold candidates in H. apply in_flat_map in H as ([t r] & Hin & Hv). cbn [fst snd] in Hv.
  assert (G : field (snd c) r = Some v).
  { destruct (fst c) as [t'|]; [destruct (String.eqb t' t); [|contradiction]|];
      (destruct (field (snd c) r) as [w|]; [destruct Hv as [->|[]]; reflexivity|contradiction]). }
  apply (F t r (snd c) v Hin). now apply field_in.
Qed.
Lemma lookup_stored c f v : frame_stored f -> lookup c [f] = Some v -> exists u, stored v u.
Proof.
  intros F. cbn. destruct (candidates c f) as [|w [|x l]] eqn:Ec; try discriminate. intros [= <-].
  apply (candidates_stored c f); [assumption|]. rewrite Ec. now left.
Qed.
Lemma collect_stored vs : Forall (fun v => exists u, stored v u) vs -> exists us, collect_all sqlval_to_turso vs = Ok us /\ Forall2 stored vs us.
Proof. apply storable_params. Qed.
Lemma collect_rows out : Forall (Forall (fun v => exists u, stored v u)) out ->
  exists rows, collect_all (collect_all sqlval_to_turso) out = Ok rows /\ Forall2 (Forall2 stored) out rows.
Proof.
  induction 1 as [|r out Hr _ (rows & E & F)]; [exists []; split; [reflexivity|constructor]|].
  destruct (collect_stored r Hr) as (us & Eu & Fu). exists (us :: rows). cbn [collect_all]. rewrite Eu. cbn [obind]. rewrite E. split; [reflexivity|now constructor].
Qed.
Lemma project_stored cols fs out : Forall frame_stored fs -> project cols fs = Some out -> Forall (Forall (fun v => exists u, stored v u)) out.
Proof.
  intros F H. apply Forall_forall. intros r Hr. apply Forall_forall. intros v Hv. apply (in_all_some _ _ _ H) in Hr.
  apply in_map_iff in Hr as (f & Ef & Hf). apply (in_all_some _ _ _ Ef) in Hv. apply in_map_iff in Hv as (c & Ec & _).
  rewrite Forall_forall in F. eapply lookup_stored; [apply F, Hf|exact Ec].
Qed.
Lemma window_incl lim off (l l' : list frame) : window d lim off l = Some l' -> incl l' l.
Proof.
  unfold window.
  assert (S : forall n (l : list frame), incl (skipn n l) l).
  { intros n l0 x Hx. rewrite <- (firstn_skipn n l0). apply in_app_iff. now right. }
  assert (T : forall n (l : list frame), incl (firstn n l) l).
  { intros n l0 x Hx. rewrite <- (firstn_skipn n l0). apply in_app_iff. now left. }
  assert (O : forall m, match off with
           | None => Some l
           | Some n => if (0 <=? n)%Z then Some (skipn (Z.to_nat n) l)
                       else if d_negative_limit d then Some l else None
           end = Some m -> incl m l).
  { intros m. destruct off as [n|]; [|intros [= <-]; apply incl_refl]. destruct (0 <=? n)%Z; [intros [= <-]; apply S|].
    destruct (d_negative_limit d); [intros [= <-]; apply incl_refl|discriminate]. }
  destruct lim as [n|]; [|apply O]. destruct (0 <=? n)%Z; [|destruct (d_negative_limit d); [apply O|discriminate]].
  destruct (match off with None => Some l | Some _ => _ end) as [m|]; [|discriminate]. cbn. intros [= <-].
  eapply incl_tran; [apply T|now apply O].
Qed.

Lemma window_length lim off (l l' : list frame) : window d lim off l = Some l' -> List.length l' <= List.length l.
Proof.
  unfold window.
  assert (O : forall m, match off with
           | None => Some l
           | Some n => if (0 <=? n)%Z then Some (skipn (Z.to_nat n) l)
                       else if d_negative_limit d then Some l else None
           end = Some m -> List.length m <= List.length l).
  { intros m. destruct off as [n|]; [|intros [= <-]; lia]. destruct (0 <=? n)%Z; [intros [= <-]; rewrite skipn_length; lia|].
    destruct (d_negative_limit d); [intros [= <-]; lia|discriminate]. }
  destruct lim as [n|]; [|apply O]. destruct (0 <=? n)%Z; [|destruct (d_negative_limit d); [apply O|discriminate]].
  destruct (match off with None => Some l | Some _ => _ end) as [m|]; [|discriminate]. cbn. intros [= <-].
  rewrite firstn_length. specialize (O m eq_refl). lia.
Qed.

Lemma small_answers : answers unit small_query d lite_engine D.
Proof.
  intros c s V ps sel One Ps Fp (out & fs & fs' & win & Sel & [Pm So] & Win & Pr).
  assert (VV : Forall2 alike V (map turso_value_to_sqlval_untyped ps)).
  { clear - Fp. induction Fp as [|v t V ps H _ IH]; [constructor|]. constructor; [|exact IH]. right. exists t. split; [exact H|apply untyped_stored]. }
  unfold selected in Sel. destruct (join_frames lite_engine D [] (sel_joins sel) (base_frames D (sel_table sel))) as [js|] eqn:Ej; [|discriminate].
  cbn [obind2] in Sel.
  assert (Base : List.length (base_frames D (sel_table sel)) <= 1) by (unfold base_frames; rewrite map_length; apply small).
  pose proof (join_small _ _ _ _ Base Ej) as Lj.
  pose proof (join_stored _ _ _ _ (base_stored _) Ej) as Fj.
  assert (Sel' : match sel_where sel with
          | None => Some js
          | Some w => select_frames (fun f => obind2 (lval D (map turso_value_to_sqlval_untyped ps) [f] w) truth) js
          end = Some fs /\ List.length fs <= 1 /\ Forall frame_stored fs).
  { destruct (sel_where sel) as [w|]; [|injection Sel as <-; auto]. split; [|split].
    - eapply select_frames_ext; [|exact Sel]. intros f t M. unfold struth in M.
      destruct (sval lite_engine D V [f] w) as [x|] eqn:Ex; [|discriminate]. cbn [obind2] in M.
      destruct (agree D V _ VV w _ _ Ex) as (x' & -> & B). cbn [obind2]. now apply (alike_truth x).
    - now apply select_small in Sel.
    - apply Forall_forall. intros f Hf. rewrite Forall_forall in Fj. apply Fj. now apply (select_incl _ _ _ Sel). }
  destruct Sel' as (Sel' & Lf & Ff).
  assert (fs' = fs) as ->.
  { destruct fs as [|f [|g fs]]; cbn in Lf; [now apply Permutation_nil in Pm|now apply Permutation_length_1_inv in Pm|lia]. }
  assert (Fw : Forall frame_stored win).
  { apply Forall_forall. intros f Hf. rewrite Forall_forall in Ff. apply Ff. now apply (window_incl _ _ _ _ Win). }
  assert (Lw : List.length win <= 1) by (pose proof (window_length _ _ _ _ Win); lia).
  assert (Q : exists all, project (sel_cols sel) win = Some all /\ select_returns d lite_engine D V sel all).
  { destruct (sel_distinct sel) eqn:Ed.
    - destruct Pr as (all & Pr & _). exists all. split; [exact Pr|]. exists fs, fs, win. unfold selected. rewrite Ej. cbn [obind2].
      split; [exact Sel|]. split; [split; [reflexivity|exact So]|]. split; [exact Win|]. rewrite Ed. exists all. split; [exact Pr|].
      pose proof (all_some_length _ _ Pr) as La. rewrite map_length in La. split; [apply incl_refl|]. split.
      + intros r Hr. exists r. split; [exact Hr|]. clear. induction r; constructor; [apply (distinct_refl _ lite_alike)|assumption].
      + destruct all as [|r [|r' all]]; [constructor|constructor; constructor|cbn in La; lia].
    - exists out. split; [exact Pr|]. exists fs, fs, win. unfold selected. rewrite Ej. cbn [obind2]. rewrite Ed. repeat split; assumption || reflexivity. }
  destruct Q as (all & Pa & Sa). destruct (collect_rows all (project_stored _ _ _ Fw Pa)) as (rows & Er & Fr).
  exists all, rows, tt. split; [exact Sa|]. split; [exact Fr|]. unfold small_query.
  destruct (Nat.ltb_spec 1 (selects s)) as [X|_]; [lia|]. rewrite Ps. unfold small_select. rewrite Ej. cbn [obind2]. rewrite Sel'. cbn [obind2].
  rewrite Win. cbn [obind2]. now rewrite Pa, Er.
Qed.
End Small.
