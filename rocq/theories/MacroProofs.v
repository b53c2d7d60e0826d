(** The conditions filter! builds say what the expression says. *)
From Verif Require Import Base SqlVal Sql Query QuerySpec Macro MacroSpec ParseProofs StmtSem.

(** * Sets of values *)

Lemma or3_true a b : or3 a b = Some true <-> a = Some true \/ b = Some true.
Proof. destruct a as [[]|], b as [[]|]; cbn; intuition congruence. Qed.
Lemma and3_true a b : and3 a b = Some true <-> a = Some true /\ b = Some true.
Proof. destruct a as [[]|], b as [[]|]; cbn; intuition congruence. Qed.
Lemma in3_true E x l : in3 E x l = Some true <-> exists v, In v l /\ compare3 E CEq x v = Some true.
Proof.
  induction l as [|v l IH]; [cbn; split; [discriminate|intros (? & [] & _)]|].
  change (in3 E x (v :: l)) with (or3 (compare3 E CEq x v) (in3 E x l)). rewrite or3_true, IH. split.
  - intros [H|(w & Hw & H)]; [exists v|exists w]; split; auto; [now left|now right].
  - intros (w & [<-|Hw] & H); [now left|right; eauto].
Qed.
Lemma all_some_total {A B} (f : A -> option B) l : (forall x, In x l -> exists y, f x = Some y) ->
  exists r, all_some (map f l) = Some r /\ (forall y, In y r <-> exists x, In x l /\ f x = Some y).
Proof.
  induction l as [|x l IH]; intros H.
  - exists []. split; [reflexivity|]. intros y. split; [intros []|intros (? & [] & _)].
  - destruct (H x (or_introl eq_refl)) as (y & Hy). destruct IH as (r & Hr & Q); [intros; apply H; now right|].
    exists (y :: r). cbn [map all_some]. rewrite Hy, Hr. split; [reflexivity|]. intros z. cbn [In]. rewrite Q. split.
    + intros [<-|(u & Hu & E)]; [exists x; auto|exists u; auto].
    + intros (u & [<-|Hu] & E); [left; congruence|right; eauto].
Qed.
Lemma select_frames_total c fs : (forall f, In f fs -> exists t, c f = Some t) ->
  exists r, select_frames c fs = Some r /\ (forall f, In f r <-> In f fs /\ c f = Some (Some true)).
Proof.
  induction fs as [|f fs IH]; intros H.
  - exists []. split; [reflexivity|]. cbn; tauto.
  - destruct (H f (or_introl eq_refl)) as (t & Ht). destruct IH as (r & Hr & Q); [intros; apply H; now right|].
    cbn [select_frames]. rewrite Ht, Hr.
    destruct t as [[|]|]; eexists; (split; [reflexivity|]); intros g; cbn [In]; rewrite Q; intuition (subst; congruence || auto).
Qed.

(** * Subqueries *)

Section Sub.
Variables (E : engine) (D : db).

(** The condition holds on exactly the rows whose column equals the key of a row
    of the other table satisfying the inner condition. *)
Theorem subquery_means fr0 c x t tc q :
  lookup (None, c) [fr0] = Some x ->
  (forall r, In r (D t) -> (exists k, field tc r = Some k) /\ exists v, means E D [(t, r)] q = Some v) ->
  exists v, means E D fr0 (BSubquery c t tc q) = Some v
    /\ (v = Some true <-> exists r k, In r (D t) /\ field tc r = Some k /\ compare3 E CEq x k = Some true
                          /\ means E D [(t, r)] q = Some (Some true)).
Proof.
  intros Hx H. cbn [means]. rewrite Hx. cbn [obind2].
  destruct (select_frames_total (fun f' => means E D f' q) (base_frames D t)) as (sel & Hs & Qs).
  { intros f Hf. apply in_map_iff in Hf as (r & <- & Hr). apply (H r Hr). }
  rewrite Hs. cbn [obind2].
  destruct (all_some_total (fun f' => lookup (None, tc) [f']) sel) as (vs & Hv & Qv).
  { intros f Hf. apply Qs in Hf as [Hf _]. apply in_map_iff in Hf as (r & <- & Hr). rewrite lookup_row. apply (H r Hr). }
  rewrite Hv. cbn [obind2]. eexists. split; [reflexivity|]. rewrite in3_true. split.
  - intros (k & Hk & C). apply Qv in Hk as (f & Hf & L). apply Qs in Hf as [Hf M]. apply in_map_iff in Hf as (r & <- & Hr).
    rewrite lookup_row in L. eauto 8.
  - intros (r & k & Hr & Hk & C & M). exists k. split; [|assumption]. apply Qv. exists [(t, r)]. rewrite lookup_row. split; [|assumption].
    apply Qs. split; [|assumption]. unfold base_frames. now apply (in_map (fun r => [(t, r)])).
Qed.

Definition link_row (l : row) : Prop := exists o h, l = [("owner", o); ("has", h)].

Lemma lookup_two c t (r : row) mt (l : row) : field c l = None ->
  lookup (None, c) [[(t, r); (mt, l)]] = field c r.
Proof. intros H. cbn. rewrite H. destruct (field c r); reflexivity. Qed.
Lemma lookup_first c t (r : row) mt (l : row) : mt <> t -> lookup (Some t, c) [[(t, r); (mt, l)]] = field c r.
Proof.
  intros H. cbn. rewrite String.eqb_refl. destruct (String.eqb_spec t mt); [congruence|]. destruct (field c r); reflexivity.
Qed.
Lemma lookup_second c t (r : row) mt (l : row) : mt <> t -> lookup (Some mt, c) [[(t, r); (mt, l)]] = field c l.
Proof.
  intros H. cbn. rewrite String.eqb_refl. destruct (String.eqb_spec mt t); [congruence|]. cbn. destruct (field c l); reflexivity.
Qed.

Lemma contains_means fr0 mt o f q x :
  mt <> m_table f -> lookup (None, m_pk o) [fr0] = Some x ->
  Forall link_row (D mt) ->
  (forall r l, In r (D (m_table f)) -> In l (D mt) ->
     (exists k, field (m_pk f) r = Some k) /\ exists v, means E D [(m_table f, r); (mt, l)] q = Some v) ->
  exists v, means E D fr0 (contains mt o f q) = Some v
    /\ (v = Some true <-> exists l r w h k, In l (D mt) /\ field "owner" l = Some w /\ field "has" l = Some h
          /\ compare3 E CEq x w = Some true
          /\ In r (D (m_table f)) /\ field (m_pk f) r = Some k /\ compare3 E CEq h k = Some true
          /\ means E D [(m_table f, r); (mt, l)] q = Some (Some true)).
Proof.
  intros Hne Hx Hl H. rewrite Forall_forall in Hl. unfold contains. cbn [means]. rewrite Hx. cbn [obind2].
  assert (J : exists js, join_frames E D [] (joins_of [{| join_table := mt;
        join_col1 := {| col_table := Some mt; col_name := "has" |};
        join_col2 := {| col_table := Some (m_table f); col_name := m_pk f |} |}]) (base_frames D (m_table f)) = Some js
      /\ forall g, In g js <-> exists r l h k, In r (D (m_table f)) /\ In l (D mt) /\ field "has" l = Some h
           /\ field (m_pk f) r = Some k /\ compare3 E CEq h k = Some true /\ g = [(m_table f, r); (mt, l)]).
  { unfold joins_of, colref_of. cbn [map join_table join_col1 join_col2 col_table col_name join_frames].
    match goal with |- context [all_some (map ?F (base_frames D (m_table f)))] => set (G := F) end.
    assert (Gr : forall r, In r (D (m_table f)) -> exists ll, G [(m_table f, r)] = Some ll
       /\ forall g, In g (concat ll) <-> exists l h k, In l (D mt) /\ field "has" l = Some h
            /\ field (m_pk f) r = Some k /\ compare3 E CEq h k = Some true /\ g = [(m_table f, r); (mt, l)]).
    { intros r Hr. unfold G.
      match goal with |- context [all_some (map ?F (D mt))] => set (K := F) end.
      assert (Kl : forall l, In l (D mt) -> exists h k, field "has" l = Some h /\ field (m_pk f) r = Some k
         /\ K l = Some (match compare3 E CEq h k with Some true => [[(m_table f, r); (mt, l)]] | _ => [] end)).
      { intros l Hl'. destruct (Hl l Hl') as (w & h & El). destruct (H r l Hr Hl') as [[k Hk] _]. exists h, k.
        split; [subst l; reflexivity|]. split; [assumption|]. unfold K. cbn [app]. cbv zeta.
        rewrite (lookup_second "has" (m_table f) r mt l Hne), (lookup_first (m_pk f) (m_table f) r mt l Hne), Hk.
        rewrite El at 1. reflexivity. }
      destruct (all_some_total K (D mt)) as (ll & Hll & Qll).
      { intros l Hl'. destruct (Kl l Hl') as (h & k & _ & _ & Ek). eauto. }
      exists ll. split; [assumption|]. intros g. rewrite in_concat. split.
      - intros (y & Hy & Hg). apply Qll in Hy as (l & Hl' & Ek). destruct (Kl l Hl') as (h & k & Eh & Epk & Ek'). rewrite Ek in Ek'.
        injection Ek' as ->. exists l, h, k. destruct (compare3 E CEq h k) as [[|]|] eqn:C; cbn in Hg; try contradiction.
        destruct Hg as [<-|[]]. tauto.
      - intros (l & h & k & Hl' & Eh & Epk & C & ->). destruct (Kl l Hl') as (h' & k' & Eh' & Epk' & Ek').
        exists [[(m_table f, r); (mt, l)]]. split; [|now left]. apply Qll. exists l. split; [assumption|]. rewrite Ek'.
        rewrite Eh in Eh'. rewrite Epk in Epk'. injection Eh' as <-. injection Epk' as <-. now rewrite C. }
    destruct (all_some_total G (base_frames D (m_table f))) as (ls & Hls & Qls).
    { intros g Hg. apply in_map_iff in Hg as (r & <- & Hr). destruct (Gr r Hr) as (ll & Ell & _). eauto. }
    rewrite Hls. cbn [obind2]. eexists. split; [reflexivity|]. intros g. rewrite in_concat. split.
    - intros (y & Hy & Hg). apply in_concat in Hy as (ll & Hll & Hy). apply Qls in Hll as (g0 & Hg0 & Eg).
      apply in_map_iff in Hg0 as (r & <- & Hr). destruct (Gr r Hr) as (ll' & Ell & Q). rewrite Eg in Ell. injection Ell as ->.
      destruct (proj1 (Q g)) as (l & h & k & P); [apply in_concat; eauto|]. exists r, l, h, k. tauto.
    - intros (r & l & h & k & Hr & P). destruct (Gr r Hr) as (ll & Ell & Q).
      assert (Hg : In g (concat ll)) by (apply Q; exists l, h, k; exact P). apply in_concat in Hg as (y & Hy & Hg).
      exists y. split; [|assumption]. apply in_concat. exists ll. split; [|assumption]. apply Qls. exists [(m_table f, r)].
      split; [|assumption]. unfold base_frames. now apply (in_map (fun r => [(m_table f, r)])). }
  destruct J as (js & Hjs & Qjs). rewrite Hjs. cbn [obind2].
  destruct (select_frames_total (fun f' => means E D f' q) js) as (sel & Hs & Qs).
  { intros g Hg. apply Qjs in Hg as (r & l & h & k & Hr & Hl' & _ & _ & _ & ->). apply (H r l Hr Hl'). }
  rewrite Hs. cbn [obind2].
  destruct (all_some_total (fun f' => lookup (colref_of {| col_table := Some mt; col_name := "owner" |}) [f']) sel) as (vs & Hv & Qv).
  { intros g Hg. apply Qs in Hg as [Hg _]. apply Qjs in Hg as (r & l & h & k & Hr & Hl' & _ & _ & _ & ->).
    unfold colref_of; cbn [col_table col_name]. rewrite lookup_second by assumption. destruct (Hl l Hl') as (w & h' & ->). exists w. reflexivity. }
  rewrite Hv. cbn [obind2]. eexists. split; [reflexivity|]. rewrite in3_true. split.
  - intros (w & Hw & C). apply Qv in Hw as (g & Hg & L). apply Qs in Hg as [Hg M].
    apply Qjs in Hg as (r & l & h & k & Hr & Hl' & Eh & Ek & C2 & ->).
    unfold colref_of in L; cbn [col_table col_name] in L. rewrite lookup_second in L by assumption.
    exists l, r, w, h, k. tauto.
  - intros (l & r & w & h & k & Hl' & Ew & Eh & C & Hr & Ek & C2 & M). exists w. split; [|assumption]. apply Qv.
    exists [(m_table f, r); (mt, l)]. split.
    + apply Qs. split; [|assumption]. apply Qjs. exists r, l, h, k. tauto.
    + unfold colref_of; cbn [col_table col_name]. now rewrite lookup_second.
Qed.
End Sub.

(** * Induction on expressions *)

Section Ind.
Variable P : rexpr -> Prop.
Hypotheses (HPath : forall s, P (RPath s)) (HLit : forall v, P (RLit v)) (HBlock : forall v, P (RBlock v))
  (HCond : forall c, P (RBlockCond c)) (HVec : forall vs, P (RVec vs))
  (HBin : forall op l r, P l -> P r -> P (RBin op l r))
  (HCall : forall r m args, Forall P args -> P (RCall r m args))
  (HGroup : forall e, P e -> P (RGroup e)) (HUn : P RUnsupported).
Fixpoint rexpr_rect2 (e : rexpr) : P e :=
  match e with
  | RPath s => HPath s | RLit v => HLit v | RBlock v => HBlock v | RBlockCond c => HCond c | RVec vs => HVec vs
  | RBin op l r => HBin op l r (rexpr_rect2 l) (rexpr_rect2 r)
  | RCall r m args => HCall r m args
      ((fix go l : Forall P l := match l with [] => Forall_nil P | a :: l' => Forall_cons a (rexpr_rect2 a) (go l') end) args)
  | RGroup e => HGroup e (rexpr_rect2 e)
  | RUnsupported => HUn
  end.
End Ind.

(** * The macro *)

Section Macro.
Variables (d : dialect) (models : string -> option model) (E : engine) (D : db).
Hypotheses (MO : models_ok models d) (TO : tables_ok D models).

Notation handle := (handle models).
Notation rust_true := (rust_true E D models).

Lemma handle_val m a v : as_written d a -> handle m a = Some (CVal v) -> value_of a = Some v.
Proof.
  destruct a as [s|w|w|c|vs|op l r|rc me args|e|]; cbn [Macro.handle value_of as_written]; try (intros _ H; congruence); try tauto.
  - intros _. destruct (String.eqb_spec s "None") as [->|]; [intros H; injection H as <-; reflexivity|].
    cbn. destruct (kind_of m s); cbn; discriminate.
  - intros _. destruct (handle m l) as [cl|]; [|discriminate]. destruct (handle m r) as [cr|]; [|discriminate].
    destruct op, cl as [c k|w|ws|q], cr as [c' k'|w'|ws'|q']; cbn; try discriminate; destruct k; discriminate.
  - intros _. destruct me, (fieldexpr m rc) as [[c [|t|mt t]]|], args as [|a [|b args]]; try discriminate;
      repeat match goal with |- context [match ?x with _ => _ end = _] => destruct x; try discriminate end.
Qed.
Lemma handle_field m a c k : as_written d a -> handle m a = Some (CField c k) -> a = RPath c /\ kind_of m c = Some k.
Proof.
  destruct a as [s|w|w|q|vs|op l r|rc me args|e|]; cbn [Macro.handle as_written]; try (intros _ H; congruence); try tauto.
  - intros _. destruct (String.eqb_spec s "None") as [->|]; [discriminate|].
    cbn. destruct (kind_of m s) eqn:K; cbn; [|discriminate]. intros H. injection H as <- <-. auto.
  - intros _. destruct (handle m l) as [cl|]; [|discriminate]. destruct (handle m r) as [cr|]; [|discriminate].
    destruct op, cl as [c0 k0|w|ws|q], cr as [c' k'|w'|ws'|q']; cbn; try discriminate; destruct k0; discriminate.
  - intros _. destruct me, (fieldexpr m rc) as [[c0 [|t|mt t]]|], args as [|a [|b args]]; try discriminate;
      repeat match goal with |- context [match ?x with _ => _ end = _] => destruct x; try discriminate end.
Qed.

Definition presents (m : model) (f : frame) (r : row) : Prop :=
  forall c, is_column m c -> lookup (None, c) [f] = field c r.

Definition good (e : rexpr) : Prop := forall n m q, models n = Some m -> handle m e = Some (CCond q) -> as_written d e ->
  bracket_free Anywhere q /\ (is_or e = false -> bracket_free BesideAnd q) /\ supported d q
  /\ forall f r, presents m f r -> has_columns m r ->
     exists t, means E D f q = Some t /\ (t = Some true <-> rust_true m r e).

Lemma pk_column n m : models n = Some m -> is_column m (m_pk m) /\ bare_name d (m_pk m).
Proof. intros H. destruct (MO n m H) as (_ & B & K & _). split; [|assumption]. exists Plain. auto. Qed.
Lemma column_kind m c k : kind_of m c = Some k -> match k with ManyOf _ _ => False | _ => True end -> is_column m c.
Proof. intros H K. exists k. auto. Qed.

Lemma compare_good m n op c k v q r0 : models n = Some m -> kind_of m c = Some k -> value_of r0 = Some v ->
  compare_code op (CField c k) (CVal v) = Some (CCond q) ->
  bracket_free Anywhere q /\ bracket_free BesideAnd q /\ supported d q
  /\ forall f r, presents m f r -> has_columns m r ->
     exists t, means E D f q = Some t /\ (t = Some true <-> exists x v, field c r = Some x /\ value_of r0 = Some v /\ compares E op x v).
Proof.
  intros Hm Hk Hv H. pose proof (MO n m Hm) as (_ & _ & _ & B & _). specialize (B c k Hk).
  assert (C : match k with ManyOf _ _ => False | _ => True end).
  { destruct k; [exact I|exact I|]. destruct op; discriminate H. }
  pose proof (column_kind m c k Hk C) as IC.
  assert (Q : forall f r, presents m f r -> has_columns m r -> exists x, field c r = Some x /\ lookup (None, c) [f] = Some x).
  { intros f r P Hr. destruct (Hr c IC) as (x & Hx). exists x. rewrite (P c IC). auto. }
  assert (S : forall (t : tv) (p : SqlVal -> SqlVal -> Prop) x r, field c r = Some x -> (t = Some true <-> p x v) ->
            (t = Some true <-> exists x v, field c r = Some x /\ value_of r0 = Some v /\ p x v)).
  { intros t p x r Hx Hp. rewrite Hp. split; [intros ?; exists x, v; auto|].
    intros (x' & v' & Ex & Ev & Pq). congruence. }
  destruct op; try (destruct k; discriminate H);
    (assert (Eq : exists q', q = q') by eauto; clear Eq);
    (destruct k; try discriminate H); injection H as <-;
    (split; [exact I|]; split; [exact I|]; split; [split; [assumption|exact I]|]);
    intros f r P Hr; destruct (Q f r P Hr) as (x & Ex & Lx);
    try (destruct (is_null v) eqn:Nv;
         [destruct v; try discriminate Nv; cbn [means]; rewrite Lx; cbn [obind2]; eexists; (split; [reflexivity|]);
          apply (S _ _ x r Ex); cbn [compares]; change (is_null VNull) with true; cbv iota; destruct x; cbn; split; congruence
         |assert (M : forall o, compare_col f c (EVal v) (compare3 E o) = Some (compare3 E o x v))
            by (intros o; unfold compare_col; rewrite Lx; reflexivity);
          eexists; split;
            [destruct v; try discriminate Nv; cbn [means]; apply M
            |apply (S _ _ x r Ex); cbn [compares]; rewrite Nv; reflexivity]]);
    try (cbn [means]; unfold compare_col; rewrite Lx; cbn [obind2 rhs]; eexists; (split; [reflexivity|]);
         apply (S _ _ x r Ex); reflexivity).
Qed.

Lemma present_row m (r : row) t : presents m [(t, r)] r.
Proof. intros c _. apply lookup_row. Qed.

(** The object with the key of a literal. *)
Lemma pk_good n m v f r : models n = Some m -> v <> VNull -> presents m f r -> has_columns m r ->
  exists t, means E D f (BEq (m_pk m) (EVal v)) = Some t
    /\ (t = Some true <-> exists k, field (m_pk m) r = Some k /\ compare3 E CEq k v = Some true).
Proof.
  intros Hm Nv P Hr. destruct (pk_column n m Hm) as [IC _]. destruct (Hr _ IC) as (k & Hk).
  assert (M : means E D f (BEq (m_pk m) (EVal v)) = Some (compare3 E CEq k v)).
  { replace (means E D f (BEq (m_pk m) (EVal v))) with (compare_col f (m_pk m) (EVal v) (compare3 E CEq))
      by (destruct v; try reflexivity; congruence).
    unfold compare_col. rewrite (P _ IC), Hk. reflexivity. }
  exists (compare3 E CEq k v). split; [exact M|]. split; [eauto|]. intros (k' & Ek & C). congruence.
Qed.

(** What the argument of matches and contains says. *)
Definition that (f : model) (r2 : row) (a : rexpr) : Prop :=
  match a with
  | RLit v => exists k, field (m_pk f) r2 = Some k /\ compare3 E CEq k v = Some true
  | _ => rust_true f r2 a
  end.
Definition arg_cond (f : model) (a : rexpr) : option BoolExpr :=
  match a with
  | RLit v => Some (BEq (m_pk f) (EVal v))
  | _ => match handle f a with Some (CCond q) => Some q | _ => None end
  end.
Lemma arg_good n f a q : models n = Some f -> good a -> as_written d a -> arg_cond f a = Some q ->
  bracket_free Anywhere q /\ supported d q
  /\ forall fr r, presents f fr r -> has_columns f r ->
     exists t, means E D fr q = Some t /\ (t = Some true <-> that f r a).
Proof.
  intros Hf G W H. destruct (match a with RLit v => Some v | _ => None end) as [v|] eqn:La.
  - destruct a; try discriminate La. injection La as ->. cbn in H. injection H as <-. split; [exact I|]. split.
    + split; [apply (pk_column n f Hf)|exact I].
    + intros fr r P Hr. apply (pk_good n); auto.
  - assert (H' : match handle f a with Some (CCond q) => Some q | _ => None end = Some q)
      by (destruct a; try discriminate La; exact H).
    destruct (handle f a) as [[| | |q0]|] eqn:Ha; try discriminate H'. injection H' as ->.
    destruct (G n f q Hf Ha W) as (B & _ & S & M). split; [assumption|]. split; [assumption|].
    intros fr r P Hr. destruct (M fr r P Hr) as (t & Mt & Q). exists t. split; [assumption|]. rewrite Q.
    destruct a; try discriminate La; reflexivity.
Qed.

Lemma matches_code m c t f a q :
  kind_of m c = Some (Fk t) -> models t = Some f -> handle m (RCall (RPath c) MMatches [a]) = Some (CCond q) ->
  exists q0, arg_cond f a = Some q0 /\ q = subfilter c f q0.
Proof.
  intros K F. cbn [Macro.handle fieldexpr]. rewrite K. cbn [option_map]. rewrite F.
  destruct a; cbn [arg_cond];
    match goal with
    | |- match ?h with _ => _ end = _ -> _ => destruct h as [[| | |]|] eqn:Eh; cbn [Macro.handle] in Eh |- *; rewrite ?Eh
    | |- _ => unfold subfilterpk
    end; intros H; (discriminate H || (injection H as <-; eauto)).
Qed.
Lemma contains_code m c mt t f a q :
  kind_of m c = Some (ManyOf mt t) -> models t = Some f -> handle m (RCall (RPath c) MContains [a]) = Some (CCond q) ->
  exists q0, arg_cond f a = Some q0 /\ q = contains mt m f q0.
Proof.
  intros K F. cbn [Macro.handle fieldexpr]. rewrite K. cbn [option_map]. rewrite F.
  destruct a; cbn [arg_cond];
    match goal with
    | |- match ?h with _ => _ end = _ -> _ => destruct h as [[| | |]|] eqn:Eh; cbn [Macro.handle] in Eh |- *; rewrite ?Eh
    | |- _ => unfold containspk
    end; intros H; (discriminate H || (injection H as <-; eauto)).
Qed.

Lemma name_of w : bare_name d w -> identifier w = true.
Proof. now intros []. Qed.

Lemma rows_of n m : models n = Some m -> forall r, In r (D (m_table m)) -> has_columns m r.
Proof. intros H. apply Forall_forall. exact (proj1 TO n m H). Qed.

Lemma matches_good n m c t f a q : models n = Some m -> kind_of m c = Some (Fk t) -> models t = Some f ->
  good a -> as_written d a -> arg_cond f a = Some q ->
  bracket_free Anywhere (subfilter c f q) /\ bracket_free BesideAnd (subfilter c f q) /\ supported d (subfilter c f q)
  /\ forall fr r, presents m fr r -> has_columns m r ->
     exists v, means E D fr (subfilter c f q) = Some v /\ (v = Some true <-> rust_true m r (RCall (RPath c) MMatches [a])).
Proof.
  intros Hm K F G W A. destruct (arg_good t f a q F G W A) as (B & S & M).
  pose proof (MO t f F) as (If & _). destruct (MO n m Hm) as (_ & _ & _ & Nm & _).
  split; [exact B|]. split; [exact B|]. split.
  { split; [apply name_of; eauto|]. split; [exact If|]. split; [apply name_of, (pk_column t f F)|exact S]. }
  intros fr r P Hr. assert (IC : is_column m c) by (exists (Fk t); auto). destruct (Hr c IC) as (x & Hx).
  destruct (subquery_means E D fr c x (m_table f) (m_pk f) q) as (v & Mv & Q).
  - rewrite (P c IC). exact Hx.
  - intros r2 H2. pose proof (rows_of t f F r2 H2) as H2'. destruct (H2' _ (proj1 (pk_column t f F))) as (k & Hk).
    destruct (M [(m_table f, r2)] r2 (present_row f r2 _) H2') as (tt & Mt & _). eauto.
  - exists v. split; [exact Mv|]. rewrite Q. split.
    + intros (r2 & k & H2 & Hk & C & Mq). exists t, f, x, r2, k. repeat (split; [assumption|]).
      destruct (M [(m_table f, r2)] r2 (present_row f r2 _) (rows_of t f F r2 H2)) as (tt & Mt & Qt). apply Qt. congruence.
    + intros (t' & f' & x' & r2 & k & K' & F' & Hx' & H2 & Hk & C & T). rewrite K in K'. injection K' as <-.
      rewrite F in F'. injection F' as <-. rewrite Hx in Hx'. injection Hx' as <-. exists r2, k. repeat (split; [assumption|]).
      destruct (M [(m_table f, r2)] r2 (present_row f r2 _) (rows_of t f F r2 H2)) as (tt & Mt & Qt). rewrite Mt. f_equal. apply Qt, T.
Qed.

Lemma contains_good n m c mt t f a q : models n = Some m -> kind_of m c = Some (ManyOf mt t) -> models t = Some f ->
  good a -> as_written d a -> arg_cond f a = Some q ->
  bracket_free Anywhere (contains mt m f q) /\ bracket_free BesideAnd (contains mt m f q) /\ supported d (contains mt m f q)
  /\ forall fr r, presents m fr r -> has_columns m r ->
     exists v, means E D fr (contains mt m f q) = Some v /\ (v = Some true <-> rust_true m r (RCall (RPath c) MContains [a])).
Proof.
  intros Hm K F G W A. destruct (arg_good t f a q F G W A) as (B & S & M).
  pose proof (MO t f F) as (If & _). destruct (MO n m Hm) as (_ & Bp & _ & Nm & _ & Ny).
  destruct (Ny c mt t K) as (Imt & f' & F' & Hne & No & Nh). rewrite F in F'. injection F' as <-.
  pose proof (proj2 TO n m c mt t Hm K) as Ln. pose proof (proj1 (Forall_forall _ _) Ln) as Ln'.
  assert (Pr : forall r2 l, In l (D mt) -> presents f [(m_table f, r2); (mt, l)] r2).
  { intros r2 l Hl c' (k & Hk & _). apply lookup_two. destruct (Ln' l Hl) as (o & h & ->). cbn [field].
    destruct (String.eqb_spec "owner" c') as [<-|]; [congruence|]. destruct (String.eqb_spec "has" c') as [<-|]; [congruence|]. reflexivity. }
  split; [exact B|]. split; [exact B|]. split.
  { split; [now apply name_of|]. split; [exact If|]. split; [split; [exact Imt|reflexivity]|]. split; [cbn; lia|].
    split; [|exact S]. constructor; [|constructor]. cbn. repeat split; auto. apply name_of, (pk_column t f F). }
  intros fr r P Hr. pose proof (proj1 (pk_column n m Hm)) as IC. destruct (Hr _ IC) as (x & Hx).
  destruct (contains_means E D fr mt m f q x) as (v & Mv & Q); auto.
  - rewrite (P _ IC). exact Hx.
  - intros r2 l H2 Hl. pose proof (rows_of t f F r2 H2) as H2'. destruct (H2' _ (proj1 (pk_column t f F))) as (k & Hk).
    destruct (M _ r2 (Pr r2 l Hl) H2') as (tt & Mt & _). eauto.
  - exists v. split; [exact Mv|]. rewrite Q. split.
    + intros (l & r2 & w & h & k & Hl & Ew & Eh & C & H2 & Hk & C2 & Mq). exists mt, t, f, x, w, h, l, r2, k.
      repeat (split; [assumption|]).
      destruct (M _ r2 (Pr r2 l Hl) (rows_of t f F r2 H2)) as (tt & Mt & Qt). apply Qt. congruence.
    + intros (mt' & t' & f' & x' & w & h & l & r2 & k & K' & F' & Hx' & Hl & Ew & Eh & C & H2 & Hk & C2 & T).
      rewrite K in K'. injection K' as <- <-.
      rewrite F in F'. injection F' as <-. rewrite Hx in Hx'. injection Hx' as <-. exists l, r2, w, h, k. repeat (split; [assumption|]).
      destruct (M _ r2 (Pr r2 l Hl) (rows_of t f F r2 H2)) as (tt & Mt & Qt). rewrite Mt. f_equal. apply Qt, T.
Qed.

Theorem macro_good e : good e.
Proof.
  induction e as [s|v|v|c|vs|op a b IHa IHb|rc me args IH|e IH|] using rexpr_rect2; intros n m q Hm H W;
    cbn [as_written] in W; try contradiction.
  - cbn [Macro.handle] in H. destruct (String.eqb s "None"); [discriminate H|]. destruct (fieldexpr m (RPath s)); discriminate H.
  - discriminate H.
  - discriminate H.
  - discriminate H.
  - (* binary *)
    cbn [Macro.handle] in H.
    assert (Wab : as_written d a /\ as_written d b) by (destruct op; tauto).
    destruct (handle m a) as [ca|] eqn:Ha; [|discriminate H]. destruct (handle m b) as [cb|] eqn:Hb; [|discriminate H].
    assert (Cmp : match op with OAnd | OOr => False | _ => True end -> compare_code op ca cb = Some (CCond q) ->
      bracket_free Anywhere q /\ bracket_free BesideAnd q /\ supported d q
      /\ forall f r, presents m f r -> has_columns m r ->
         exists t, means E D f q = Some t /\ (t = Some true <-> rust_true m r (RBin op a b))).
    { intros No Hc. destruct ca as [c k|w|ws|q1]; [|destruct op; discriminate Hc..].
      destruct cb as [c' k'|w'|ws'|q2]; [destruct op; discriminate Hc| |destruct op; discriminate Hc..].
      destruct (handle_field m a c k (proj1 Wab) Ha) as [-> Kc].
      pose proof (handle_val m b w' (proj2 Wab) Hb) as Vb.
      destruct (compare_good m n op c k w' q b Hm Kc Vb Hc) as (B1 & B2 & S & M). repeat (split; [assumption|]).
      intros f r P Hr. destruct (M f r P Hr) as (t & Mt & Q). exists t. split; [assumption|]. rewrite Q.
      destruct op; try contradiction; reflexivity. }
    destruct op; try (destruct (Cmp I H) as (B1 & B2 & S & M); split; [assumption|]; split; [intros _; assumption|]; split; assumption).
    + destruct ca as [c k|w|ws|q1]; [destruct cb; try discriminate H; destruct k; discriminate H|discriminate H|discriminate H|].
      destruct cb as [c' k'|w'|ws'|q2]; try discriminate H. injection H as <-. destruct W as (Oa & Ob & _).
      destruct (IHa n m q1 Hm Ha (proj1 Wab)) as (Ba & Ba' & Sa & Ma). destruct (IHb n m q2 Hm Hb (proj2 Wab)) as (Bb & Bb' & Sb & Mb).
      split; [cbn; split; [discriminate|auto]|]. split; [intros _; cbn; split; [discriminate|auto]|]. split; [split; assumption|].
      intros f r P Hr. destruct (Ma f r P Hr) as (ta & Ea & Qa). destruct (Mb f r P Hr) as (tb & Eb & Qb).
      exists (and3 ta tb). cbn [means]. rewrite Ea, Eb. split; [reflexivity|]. rewrite and3_true, Qa, Qb. reflexivity.
    + destruct ca as [c k|w|ws|q1]; [destruct cb; try discriminate H; destruct k; discriminate H|discriminate H|discriminate H|].
      destruct cb as [c' k'|w'|ws'|q2]; try discriminate H. injection H as <-.
      destruct (IHa n m q1 Hm Ha (proj1 Wab)) as (Ba & Ba' & Sa & Ma). destruct (IHb n m q2 Hm Hb (proj2 Wab)) as (Bb & Bb' & Sb & Mb).
      split; [cbn; auto|]. split; [intros Hd; discriminate Hd|]. split; [split; assumption|].
      intros f r P Hr. destruct (Ma f r P Hr) as (ta & Ea & Qa). destruct (Mb f r P Hr) as (tb & Eb & Qb).
      exists (or3 ta tb). cbn [means]. rewrite Ea, Eb. split; [reflexivity|]. rewrite or3_true, Qa, Qb. reflexivity.
  - (* method call *)
    destruct rc as [c|v|v|cc|vs|op l r|r0 m0 a0|e0|]; try (cbn in H; destruct me; discriminate H).
    cbn [is_or].
    destruct (kind_of m c) as [k|] eqn:K; [|cbn in H; rewrite K in H; destruct me; discriminate H].
    destruct (MO n m Hm) as (_ & _ & _ & Nm & _). specialize (Nm c k K).
    destruct me.
    + (* matches *)
      destruct k as [|t|mt t]; [cbn in H; rewrite K in H; discriminate H| |cbn in H; rewrite K in H; discriminate H].
      destruct args as [|a [|b args]]; [cbn in H; rewrite K in H; discriminate H| |cbn in H; rewrite K in H; discriminate H].
      destruct (models t) as [f|] eqn:F; [|cbn in H; rewrite K in H; cbn in H; rewrite F in H; discriminate H].
      destruct (matches_code m c t f a q K F H) as (q0 & A & ->). inversion IH as [|x l Ga _]; subst.
      destruct W as [Wa _]. destruct (matches_good n m c t f a q0 Hm K F Ga Wa A) as (B1 & B2 & S & M).
      split; [assumption|]. split; [intros _; assumption|]. split; assumption.
    + (* contains *)
      destruct k as [|t|mt t]; [cbn in H; rewrite K in H; discriminate H|cbn in H; rewrite K in H; discriminate H|].
      destruct args as [|a [|b args]]; [cbn in H; rewrite K in H; discriminate H| |cbn in H; rewrite K in H; discriminate H].
      destruct (models t) as [f|] eqn:F; [|cbn in H; rewrite K in H; cbn in H; rewrite F in H; discriminate H].
      destruct (contains_code m c mt t f a q K F H) as (q0 & A & ->). inversion IH as [|x l Ga _]; subst.
      destruct W as [Wa _]. destruct (contains_good n m c mt t f a q0 Hm K F Ga Wa A) as (B1 & B2 & S & M).
      split; [assumption|]. split; [intros _; assumption|]. split; assumption.
    + (* like *)
      destruct k as [|t|mt t]; [|cbn in H; rewrite K in H; discriminate H..].
      destruct args as [|a args]; [cbn in H; rewrite K in H; discriminate H|]. destruct W as [Wa _].
      assert (X : exists v, handle m a = Some (CVal v) /\ q = BLike c (EVal v)).
      { cbn [Macro.handle fieldexpr] in H. rewrite K in H. cbn [option_map] in H. revert H.
        destruct a; try (intros H; discriminate H);
          match goal with |- match ?h with _ => _ end = _ -> _ => destruct h as [[| | |]|] eqn:Eh end; intros H; try discriminate H;
          injection H as <-; eauto. }
      destruct X as (v & Hv & ->). pose proof (handle_val m a v Wa Hv) as Vv. split; [exact I|]. split; [intros _; exact I|].
      split; [split; [exact Nm|exact I]|]. intros f r P Hr. assert (IC : is_column m c) by (exists Plain; auto).
      destruct (Hr c IC) as (x & Hx). exists (e_like E x v). cbn [means]. unfold compare_col. rewrite (P c IC), Hx. split; [reflexivity|].
      cbn [MacroSpec.rust_true]. split; [intros ?; exists x, v; auto|]. intros (x' & v' & Ex & Ev & L). congruence.
    + (* is_in *)
      destruct k as [|t|mt t]; [|cbn in H; rewrite K in H; discriminate H..].
      destruct args as [|a args]; [cbn in H; rewrite K in H; discriminate H|]. destruct W as [Wa _].
      cbn in H. rewrite K in H. cbn in H. destruct a; try discriminate H. injection H as <-.
      split; [exact I|]. split; [intros _; exact I|]. split; [split; [now apply name_of|exact Wa]|].
      intros f r P Hr. assert (IC : is_column m c) by (exists Plain; auto).
      destruct (Hr c IC) as (x & Hx). exists (in3 E x vs). cbn [means]. rewrite (P c IC), Hx. split; [reflexivity|].
      rewrite in3_true. cbn [MacroSpec.rust_true]. split; [intros (v & Hv & C); exists x, v; auto|].
      intros (x' & v' & Ex & Ev & L). exists v'. split; [assumption|congruence].
    + cbn in H. discriminate H.
  - discriminate H.
Qed.
End Macro.

(** * Acceptance *)

Lemma value_handled models m b v : value_of b = Some v -> handle models m b = Some (CVal v).
Proof.
  destruct b; cbn; try discriminate; try congruence.
  unfold value_of. intros H. destruct (String.eqb_spec id "None") as [->|N].
  - vm_compute in H. injection H as <-. reflexivity.
  - exfalso. revert H. repeat (let a := fresh in destruct id as [|a id]; [discriminate|]; destruct a as [[] [] [] [] [] [] [] []]; try discriminate).
    destruct id; [|discriminate]. congruence.
Qed.
Theorem accepted models e : forall m, well_formed models m e -> exists q, handle models m e = Some (CCond q).
Proof.
  induction e as [s|v|v|c|vs|op l r IHl IHr|r meth args IH|e IHe|] using rexpr_rect2; intros m W; cbn [well_formed] in W; try contradiction.
  - eexists. reflexivity.
  - assert (C : forall c b, l = RPath c -> r = b -> (c <> "None"%string /\ value_of b <> None) -> forall k, kind_of m c = Some k ->
        exists v, handle models m l = Some (CField c k) /\ handle models m r = Some (CVal v)).
    { intros c b -> -> [N V] k K. destruct (value_of b) as [v|] eqn:Eb; [|congruence]. exists v.
      split; [|now apply value_handled]. cbn [handle fieldexpr]. rewrite K. destruct (String.eqb_spec c "None"); [congruence|reflexivity]. }
    destruct op; try contradiction.
    7, 8: destruct W as [W1 W2]; destruct (IHl m W1) as [a Ha]; destruct (IHr m W2) as [b Hb]; cbn [handle]; rewrite Ha, Hb; eexists; reflexivity.
    all: destruct l; try contradiction; destruct W as (N & V & K).
    1, 2: (destruct K as [K|[t K]]; destruct (C id r eq_refl eq_refl (conj N V) _ K) as (v & Hl & Hr); cbn [handle] in Hl |- *; rewrite Hl, Hr; eexists; reflexivity).
    all: destruct (C id r eq_refl eq_refl (conj N V) _ K) as (v & Hl & Hr); cbn [handle] in Hl |- *; rewrite Hl, Hr; eexists; reflexivity.
  - destruct r; try contradiction. destruct meth; try contradiction; destruct args as [|a [|b args]]; try contradiction.
    + destruct W as (t & f & K & F & W). cbn [handle fieldexpr]. rewrite K. cbn [option_map]. rewrite F.
      inversion IH as [|? ? IHa _]; subst.
      destruct a; try (eexists; reflexivity); destruct (IHa f W) as [q Hq]; rewrite Hq; eexists; reflexivity.
    + destruct W as (mt & t & f & K & F & W). cbn [handle fieldexpr]. rewrite K. cbn [option_map]. rewrite F.
      inversion IH as [|? ? IHa _]; subst.
      destruct a; try (eexists; reflexivity); destruct (IHa f W) as [q Hq]; rewrite Hq; eexists; reflexivity.
    + destruct W as (K & V). destruct (value_of a) as [v|] eqn:Ea; [|congruence]. pose proof (value_handled models m a v Ea) as Hv.
      cbn [handle fieldexpr]. rewrite K. cbn [option_map].
      destruct a; try discriminate; rewrite Hv; eexists; reflexivity.
    + destruct a; try contradiction. cbn [handle fieldexpr]. rewrite W. eexists; reflexivity.
    + destruct a; contradiction.
  - exact (IHe m W).
Qed.
