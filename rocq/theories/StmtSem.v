(** What the parsed statements do. *)
From Coq Require Import Permutation DecimalString.
From Verif Require Import Base SqlVal Sql SqlStmt Query QuerySpec Stmt StmtSpec
  LexProofs RenderProofs TokProofs ParseProofs StmtProofs StmtParse.

Lemma carries_self vs : carries vs 1 vs.
Proof. split; [lia|]. intros i v H. exact H. Qed.

Lemma lookup_row c t (r : row) : lookup (None, c) [[(t, r)]] = field c r.
Proof. cbn. destruct (field c r); reflexivity. Qed.

Notation fr t := (fun r : row => [(t, r)] : frame).

Lemma reads_truth e x E D f t : reads 1 e x -> engine_ok E -> means E D f e = Some t ->
  struth E D (bound_values e) [f] x = Some t.
Proof.
  intros R K M. unfold struth. rewrite (R E D (bound_values e) [] f t K (carries_self _) M).
  cbn. apply to_of_tv.
Qed.

Lemma select_filter E D t e x (rows : list row) : reads 1 e x -> engine_ok E ->
  (forall r, In r rows -> exists v, means E D [(t, r)] e = Some v) ->
  select_frames (fun f => struth E D (bound_values e) [f] x) (map (fr t) rows)
  = Some (map (fr t) (filter (row_matches E D t (Some e)) rows)).
Proof.
  intros R K. induction rows as [|r rows IH]; intros H; [reflexivity|].
  cbn [map select_frames filter]. rewrite IH by (intros r' Hr'; apply H; now right).
  destruct (H r (or_introl eq_refl)) as (v & Hv). rewrite (reads_truth e x E D [(t, r)] v R K Hv).
  assert (Q : row_matches E D t (Some e) r = match v with Some true => true | _ => false end) by (unfold row_matches; now rewrite Hv).
  rewrite Q. destruct v as [[|]|]; reflexivity.
Qed.
Lemma filter_all {A} (f : A -> bool) l : (forall x, f x = true) -> filter f l = l.
Proof. intros H. induction l as [|a l IH]; [reflexivity|]. cbn. now rewrite H, IH. Qed.

Lemma selected_rows E D cols t e w os lim off : reads_opt e w -> engine_ok E -> filter_ok E D t e ->
  selected E D (bound_opt e) (the_select cols t w os lim off)
  = Some (map (fr t) (filter (row_matches E D t e) (D t))).
Proof.
  intros R K F. unfold selected, the_select, base_frames. cbn [sel_joins sel_table sel_where join_frames obind2].
  destruct e as [e|], w as [w|]; cbn in R; try contradiction.
  - cbn [bound_opt]. now apply select_filter.
  - rewrite filter_all; reflexivity.
Qed.

Lemma ord_le_rows E t os a b : ord_le E (map (fun o => (ord_column o, ord_desc o)) os) [(t, a)] [(t, b)] <-> row_le E os a b.
Proof.
  induction os as [|o os IH]; [reflexivity|]. cbn [map ord_le row_le].
  setoid_rewrite lookup_row. setoid_rewrite IH. reflexivity.
Qed.
Lemma sorted_rows E t os l :
  StronglySorted (ord_le E (map (fun o => (ord_column o, ord_desc o)) os)) (map (fr t) l) <-> StronglySorted (row_le E os) l.
Proof.
  split.
  - induction l as [|a l IH]; [constructor|]. cbn [map]. intros H. apply StronglySorted_inv in H as [S F].
    constructor; [auto|]. rewrite Forall_forall in *. intros b Hb. apply (ord_le_rows E t). apply F.
    now apply (in_map (fr t)).
  - induction 1 as [|a l S IH F]; [constructor|]. cbn [map]. constructor; [auto|].
    rewrite Forall_forall in *. intros f Hf. apply in_map_iff in Hf as (b & <- & Hb). apply ord_le_rows. auto.
Qed.
Lemma arranged_rows E t os l fs' :
  arranged E (map (fun o => (ord_column o, ord_desc o)) os) (map (fr t) l) fs'
  <-> exists l', fs' = map (fr t) l' /\ Permutation l l' /\ StronglySorted (row_le E os) l'.
Proof.
  split.
  - intros [P S]. apply Permutation_sym in P. apply Permutation_map_inv in P as (l' & -> & P).
    exists l'. split; [reflexivity|]. split; [assumption|]. now apply (sorted_rows E t).
  - intros (l' & -> & P & S). split; [now apply Permutation_map|now apply sorted_rows].
Qed.
Lemma window_nonneg d {A} lim off (l : list A) : nonneg lim -> nonneg off ->
  window d lim off l = Some (take lim (drop off l)).
Proof.
  intros Hl Ho. unfold window, take, drop. destruct off as [n|]; cbn in Ho; [destruct (Z.leb_spec 0 n); [|lia]|];
    (destruct lim as [m|]; cbn in Hl; [destruct (Z.leb_spec 0 m); [|lia]|]); reflexivity.
Qed.
Lemma take_map {A B} (f : A -> B) lim l : take lim (map f l) = map f (take lim l).
Proof. destruct lim; [apply firstn_map|reflexivity]. Qed.
Lemma drop_map {A B} (f : A -> B) lim l : drop lim (map f l) = map f (drop lim l).
Proof. destruct lim; [apply skipn_map|reflexivity]. Qed.
Lemma project_rows cols t (l : list row) :
  project (map (fun c => (None, c)) cols) (map (fr t) l) = all_some (map (columns_of cols) l).
Proof.
  unfold project. rewrite map_map. f_equal. apply map_ext. intros r. unfold columns_of. f_equal. rewrite map_map.
  apply map_ext. intros c. apply lookup_row.
Qed.

Lemma select_meaning d E D x cols w lim lim' :
  reads_opt (q_filter x) w -> engine_ok E -> filter_ok E D (q_table x) (q_filter x) ->
  nonneg lim -> nonneg (q_offset x) ->
  (forall l : list row, List.length l <= List.length (D (q_table x)) -> take lim' (drop (q_offset x) l) = take lim (drop (q_offset x) l)) ->
  forall out, select_returns d E D (bound_opt (q_filter x)) (the_select cols (q_table x) w (q_sort x) lim (q_offset x)) out
              <-> returns E D x lim' cols out.
Proof.
  intros R K F Hl Ho HL out. unfold select_returns, returns. rewrite (selected_rows E D) by assumption.
  cbn [sel_order the_select sel_limit sel_offset sel_distinct sel_cols].
  set (rows := filter _ (D (q_table x))).
  assert (LR : List.length rows <= List.length (D (q_table x))).
  { unfold rows. generalize (D (q_table x)). intros l. induction l as [|a l IH]; [reflexivity|].
    cbn. destruct (row_matches _ _ _ _ _); cbn; lia. }
  split.
  - intros (fs & fs' & win & Efs & A & W & Pr). injection Efs as <-. apply arranged_rows in A as (l' & -> & P & S).
    exists l'. split; [assumption|]. split; [assumption|].
    rewrite window_nonneg in W by assumption. injection W as <-. rewrite drop_map, take_map, project_rows in Pr.
    rewrite HL; [assumption|]. now rewrite <- (Permutation_length P).
  - intros (l' & P & S & Pr). exists (map (fr (q_table x)) rows), (map (fr (q_table x)) l'), (map (fr (q_table x)) (take lim (drop (q_offset x) l'))).
    split; [reflexivity|]. split; [apply arranged_rows; exists l'; auto|].
    split; [rewrite window_nonneg, drop_map, take_map by assumption; reflexivity|].
    rewrite project_rows, <- HL; [assumption|]. now rewrite <- (Permutation_length P).
Qed.

(** * DELETE *)

Lemma delete_meaning E D fill t e x : reads 1 e x -> engine_ok E -> filter_ok E D t (Some e) ->
  exec E fill D (bound_values e) (Delete t x)
  = Some (with_table D t (filter (fun r => negb (row_matches E D t (Some e) r)) (D t)), None).
Proof.
  intros R K F. cbn [exec]. cbn in F.
  assert (X : forall l, (forall r, In r l -> exists v, means E D [(t, r)] e = Some v) ->
    delete_rows (fun r => struth E D (bound_values e) [[(t, r)]] x) l = Some (filter (fun r => negb (row_matches E D t (Some e) r)) l)).
  { induction l as [|r l IH]; intros H; [reflexivity|]. cbn [delete_rows filter].
    rewrite IH by (intros r' Hr'; apply H; now right). destruct (H r (or_introl eq_refl)) as (v & Hv).
    rewrite (reads_truth e x E D [(t, r)] v R K Hv). 
    assert (Q : row_matches E D t (Some e) r = match v with Some true => true | _ => false end) by (unfold row_matches; now rewrite Hv).
    rewrite Q. destruct v as [[|]|]; reflexivity. }
  rewrite X by assumption. reflexivity.
Qed.

(** * INSERT *)

Lemma params_values E D V scope k vs : carries V k vs ->
  all_some (map (sval E D V scope) (params k (List.length vs))) = Some vs.
Proof.
  revert k. induction vs as [|v vs IH]; intros k C; [reflexivity|]. unfold params in *. cbn [List.length seq map].
  cbn [sval]. rewrite (carries_param V k v vs C). cbn [all_some].
  rewrite IH; [reflexivity|]. rewrite <- Nat.add_1_r. apply (carries_r V k [v] vs C).
Qed.
Lemma insert_meaning E D fill t cols vs ret : List.length vs = List.length cols ->
  exec E fill D vs (Insert t cols (params 1 (List.length cols)) Fail ret)
  = Some (let new := combine cols vs ++ fill t cols in
          (with_table D t (D t ++ [new]), obind2 ret (fun c => field c new))).
Proof.
  intros L. cbn [exec]. rewrite <- L, params_values by apply carries_self. reflexivity.
Qed.

(** * UPDATE *)

Lemma set_field_assign c v (r : row) : NoDup (map fst r) -> In c (map fst r) -> set_field c v r = Some (assign1 c v r).
Proof.
  induction r as [|(n, x) r IH]; intros N I; [destruct I|]. cbn [set_field assign1 map fst].
  inversion N as [|? ? N1 N2]; subst. destruct (String.eqb_spec n c) as [->|Ne].
  - do 2 f_equal. change (r = assign1 c v r). clear -N1. induction r as [|(m, y) r IH]; [reflexivity|]. cbn [assign1 map fst].
    cbn in N1. destruct (String.eqb_spec m c) as [->|]; [tauto|]. f_equal. apply IH. tauto.
  - destruct I as [I|I]; [cbn in I; congruence|]. rewrite (IH N2 I). reflexivity.
Qed.
Lemma assign1_names c v (r : row) : map fst (assign1 c v r) = map fst r.
Proof. induction r as [|(n, x) r IH]; [reflexivity|]. cbn. destruct (String.eqb n c); cbn; f_equal; exact IH. Qed.
Lemma set_fields_assign l (r : row) : NoDup (map fst r) -> incl (map fst l) (map fst r) -> set_fields l r = Some (assign l r).
Proof.
  revert r. induction l as [|(c, v) l IH]; intros r N I; [reflexivity|]. cbn [set_fields].
  rewrite set_field_assign; [|assumption|apply I; now left]. cbn [obind2 assign fold_left fst snd].
  apply IH; rewrite assign1_names; [assumption|]. intros a Ha. apply I. now right.
Qed.
Lemma assign_names l : forall r : row, map fst (assign l r) = map fst r.
Proof. induction l as [|(c, v) l IH]; intros r; [reflexivity|].
  change (assign ((c, v) :: l) r) with (assign l (assign1 c v r)). now rewrite IH, assign1_names. Qed.

Lemma field_assign1 c v (r : row) c' : field c' (assign1 c v r) = if String.eqb c c' then option_map (fun _ => v) (field c' r) else field c' r.
Proof.
  induction r as [|(n, x) r IH]; [cbn; now destruct (String.eqb c c')|].
  change (assign1 c v ((n, x) :: r)) with ((if String.eqb n c then (n, v) else (n, x)) :: assign1 c v r).
  destruct (String.eqb_spec n c) as [E1|E1], (String.eqb_spec c c') as [E2|E2]; cbn [field];
    destruct (String.eqb_spec n c') as [E3|E3]; try congruence; try reflexivity; exact IH.
Qed.
(** Reading back what was assigned. *)
Lemma field_assign cols vs : forall (r : row) c, NoDup cols -> List.length vs = List.length cols -> incl cols (map fst r) ->
  field c (assign (combine cols vs) r) = match field c (combine cols vs) with Some v => Some v | None => field c r end.
Proof.
  revert vs. induction cols as [|a cols IH]; intros [|v vs] r c N L I; try discriminate L; [reflexivity|].
  cbn [combine]. cbn [assign fold_left fst snd field]. inversion N as [|? ? N1 N2]; subst.
  change (fold_left _ (combine cols vs) (assign1 a v r)) with (assign (combine cols vs) (assign1 a v r)).
  rewrite IH; [|assumption|cbn in L; lia|rewrite assign1_names; intros x Hx; apply I; now right].
  rewrite field_assign1. destruct (String.eqb_spec a c) as [->|Ne]; [|reflexivity].
  replace (field c (combine cols vs)) with (@None SqlVal).
  - assert (X : exists y, field c r = Some y).
    { assert (In c (map fst r)) as Hc by (apply I; now left). clear -Hc. induction r as [|(n, x) r IH]; [destruct Hc|].
      cbn. destruct (String.eqb_spec n c); [eauto|]. apply IH. destruct Hc; [cbn in *; congruence|assumption]. }
    destruct X as (y & ->). reflexivity.
  - symmetry. clear -N1. revert vs. induction cols as [|b cols IH]; intros [|w vs]; try reflexivity. cbn.
    destruct (String.eqb_spec b c) as [->|]; [cbn in N1; tauto|]. apply IH. cbn in N1. tauto.
Qed.

Lemma update_meaning E D fill t pk cols vs kv : engine_ok E -> List.length vs = List.length cols ->
  Forall (row_has (pk :: cols)) (D t) ->
  exec E fill D (vs ++ [kv]) (Update t (combine cols (params 1 (List.length cols)))
            (SOr [SAnd [SCmp CEq (SCol (None, pk)) (SParam (Z.of_nat (1 + List.length cols)))]]))
  = Some (with_table D t (rewrite_rows (has_key E pk kv) (assign (combine cols vs)) (D t)), None).
Proof.
  intros K L F. cbn [exec].
  assert (C : carries (vs ++ [kv]) 1 (vs ++ [kv])) by apply carries_self.
  assert (S : forall r, sets_in E D (vs ++ [kv]) [[(t, r)]] (combine cols (params 1 (List.length cols))) = Some (combine cols vs)).
  { intros r. apply carries_l in C. rewrite <- L. clear F. revert C L. generalize 1. generalize (vs ++ [kv]). intros V k C L. revert k vs C L.
    induction cols as [|c cols IH]; intros k [|v vs] C L; try discriminate L; [reflexivity|].
    unfold sets_in, params in *. cbn [List.length seq map combine fst snd sval]. rewrite (carries_param _ _ _ _ C). cbn [option_map all_some].
    rewrite IH; [reflexivity| |cbn in L; lia]. rewrite <- Nat.add_1_r. apply (carries_r _ k [v] vs C). }
  assert (Pk : forall r : row, struth E D (vs ++ [kv]) [[(t, r)]]
     (SOr [SAnd [SCmp CEq (SCol (None, pk)) (SParam (Z.of_nat (1 + List.length cols)))]])
     = option_map (fun x => compare3 E CEq x kv) (field pk r)).
  { intros r. unfold struth. cbn [sval]. rewrite lookup_row. destruct (field pk r) as [x|]; [|reflexivity].
    cbn [obind2]. apply carries_r in C. rewrite L in C. rewrite (carries_param _ _ _ _ C). cbn. apply to_of_tv. }
  assert (X : forall l, Forall (row_has (pk :: cols)) l ->
    update_rows (fun r => struth E D (vs ++ [kv]) [[(t, r)]]
       (SOr [SAnd [SCmp CEq (SCol (None, pk)) (SParam (Z.of_nat (1 + List.length cols)))]]))
      (fun r => obind2 (sets_in E D (vs ++ [kv]) [[(t, r)]] (combine cols (params 1 (List.length cols)))) (fun l => set_fields l r)) l
    = Some (rewrite_rows (has_key E pk kv) (assign (combine cols vs)) l)).
  { induction 1 as [|r l [N I] Fl IH]; [reflexivity|]. cbn [update_rows rewrite_rows map]. rewrite IH, Pk.
    assert (Q : exists y, field pk r = Some y).
    { assert (In pk (map fst r)) as Hc by (apply I; now left). clear -Hc. induction r as [|(n, x) r IH]; [destruct Hc|].
      cbn. destruct (String.eqb_spec n pk); [eauto|]. apply IH. destruct Hc; [cbn in *; congruence|assumption]. }
    destruct Q as (y & Hy). assert (HK : has_key E pk kv r = match compare3 E CEq y kv with Some true => true | _ => false end)
      by (unfold has_key; now rewrite Hy).
    rewrite HK, Hy. cbn [option_map]. destruct (compare3 E CEq y kv) as [[|]|]; try reflexivity.
    rewrite S. cbn [obind2]. rewrite set_fields_assign; [reflexivity|assumption|].
    intros a Ha. apply I. right. apply in_map_iff in Ha as ((a' & v') & <- & Ha). exact (in_combine_l _ _ _ _ Ha). }
  rewrite X by assumption. reflexivity.
Qed.

Lemma field_combine cols : forall vs i c v, NoDup cols -> List.length vs = List.length cols ->
  nth_error cols i = Some c -> nth_error vs i = Some v -> field c (combine cols vs) = Some v.
Proof.
  induction cols as [|a cols IH]; intros [|w vs] [|i] c v N L Hc Hv; try discriminate; cbn in *.
  - injection Hc as ->. injection Hv as ->. now rewrite String.eqb_refl.
  - inversion N; subst. destruct (String.eqb_spec a c) as [->|]; [|apply (IH vs i); auto].
    exfalso. apply nth_error_In in Hc. tauto.
Qed.
Lemma field_combine_none cols : forall vs c, ~ In c cols -> field c (combine cols vs) = None.
Proof.
  induction cols as [|a cols IH]; intros [|w vs] c N; try reflexivity. cbn in *.
  destruct (String.eqb_spec a c); [tauto|]. apply IH. tauto.
Qed.
Theorem assignment_correct cols vs (r : row) : NoDup cols -> List.length vs = List.length cols -> row_has cols r ->
  (forall i c v, nth_error cols i = Some c -> nth_error vs i = Some v -> field c (assign (combine cols vs) r) = Some v)
  /\ (forall c, ~ In c cols -> field c (assign (combine cols vs) r) = field c r)
  /\ map fst (assign (combine cols vs) r) = map fst r.
Proof.
  intros N L [Nr I]. split; [|split; [|apply assign_names]].
  - intros i c v Hc Hv. rewrite field_assign by assumption. now rewrite (field_combine cols vs i c v).
  - intros c H. rewrite field_assign by assumption. now rewrite field_combine_none.
Qed.
