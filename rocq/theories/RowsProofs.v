(** Proofs about iterating over query results. *)
From Verif Require Import Base SqlVal Backend Rows RowsSpec.

Lemma observe_app {St R} (c : cursor St R) st calls l m :
  observe c st calls = l ++ m ->
  exists c1 c2 st', calls = c1 ++ c2 /\ observe c st c1 = l /\ observe c st' c2 = m /\
    st' = fold_left (fun s k => match k with Next => snd (c_next c s) | Current => s end) c1 st.
Proof.
  revert st calls. induction l as [|a l IH]; intros st calls H.
  - exists [], calls, st. auto.
  - destruct calls as [|k calls]; [discriminate|]. destruct k; cbn [observe] in H.
    + destruct (c_next c st) as [x st1] eqn:E. cbn in H. injection H as <- H.
      destruct (IH _ _ H) as (c1 & c2 & st' & -> & H1 & H2 & H3).
      exists (Next :: c1), c2, st'. cbn [observe fold_left app]. rewrite E. cbn [snd]. rewrite H1. auto.
    + cbn in H. injection H as <- H. destruct (IH _ _ H) as (c1 & c2 & st' & -> & H1 & H2 & H3).
      exists (Current :: c1), c2, st'. cbn [observe fold_left app]. rewrite H1. auto.
Qed.

Definition advance {St R} (c : cursor St R) (s : St) (k : rcall) : St :=
  match k with Next => snd (c_next c s) | Current => s end.

(** * VecRows *)

Lemma firstn_more {A} (l : list A) a n k : firstn n (l ++ repeat a (n + k)) = firstn n (l ++ repeat a n).
Proof.
  rewrite repeat_app, app_assoc, firstn_app.
  assert (n - List.length (l ++ repeat a n) = 0) as ->. { rewrite app_length, repeat_length. lia. }
  cbn [firstn]. apply app_nil_r.
Qed.

Lemma vec_nexts {T} (rows : list T) calls i :
  nexts (observe (vec_cursor T) {| vr_rows := rows; vr_idx := i |} calls) =
  map (fun j => Ok (nth_error rows j)) (seq i (List.length (nexts (observe (vec_cursor T) {| vr_rows := rows; vr_idx := i |} calls)))).
Proof.
  revert i. induction calls as [|k calls IH]; intros i; [reflexivity|].
  destruct k; cbn [observe vec_cursor c_next c_current vr_next vr_rows vr_idx nexts List.length].
  - cbn [seq map]. f_equal. apply IH.
  - apply IH.
Qed.

Lemma vec_seq {T} (rows : list T) n i :
  map (fun j => Ok (nth_error rows j)) (seq i n) =
  firstn n (map (fun x => Ok (Some x)) (skipn i rows) ++ repeat (Ok None) n).
Proof.
  revert i. induction n as [|n IH]; intros i; [reflexivity|].
  cbn [seq map]. rewrite IH. destruct (nth_error rows i) as [x|] eqn:E.
  - assert (skipn i rows = x :: skipn (S i) rows) as ->.
    { clear IH. revert i E. induction rows as [|y rows IHr]; intros [|i] E; try discriminate.
      - cbn in E |- *. congruence.
      - cbn in E. cbn [skipn]. rewrite (IHr i E). destruct rows; [|reflexivity].
        destruct i; discriminate. }
    cbn [map app firstn]. f_equal.
    rewrite <- (Nat.add_1_r n). symmetry. apply firstn_more.
  - apply nth_error_None in E. rewrite (skipn_all2 rows E).
    rewrite (skipn_all2 rows (n:=S i)) by lia. cbn [map app firstn repeat]. reflexivity.
Qed.

Lemma vec_visits {T} (rows : list T) calls :
  visits rows (nexts (observe (vec_cursor T) (vr_new rows) calls)).
Proof.
  unfold visits, vr_new. rewrite vec_nexts at 1. rewrite vec_seq. reflexivity.
Qed.

Lemma vec_following {T} (rows : list T) calls :
  current_is_following (observe (vec_cursor T) (vr_new rows) calls).
Proof.
  intros before x between y after H Nb.
  destruct (observe_app _ _ _ _ _ H) as (c1 & c2 & st & -> & _ & H2 & _). clear H.
  destruct c2 as [|k c2]; [discriminate|]. destruct k.
  { cbn [observe vec_cursor c_next] in H2. unfold vr_next in H2. cbn in H2. discriminate. }
  cbn [observe] in H2. cbn [app] in H2. injection H2 as Hx H2.
  destruct (observe_app _ _ _ _ _ H2) as (c3 & c4 & st2 & -> & H3 & H4 & H5).
  assert (st2 = st).
  { subst st2. clear -H3 Nb. revert between H3 Nb. induction c3 as [|k c3 IH]; intros between H3 Nb; [reflexivity|].
    destruct k; cbn [observe] in H3.
    - cbn [vec_cursor c_next vr_next] in H3. unfold vr_next in H3. subst between. cbn in Nb. discriminate.
    - subst between. cbn [nexts] in Nb. cbn [fold_left]. exact (IH _ eq_refl Nb). }
  subst st2. rewrite H in H4. destruct c4 as [|k c4]; [discriminate|]. destruct k; cbn [observe] in H4.
  - cbn [vec_cursor c_next] in H4. unfold vr_next in H4. injection H4 as <- _.
    rewrite <- Hx. reflexivity.
  - discriminate.
Qed.

(** * SQLite *)

Lemma sqlite_observe {T} (steps : list (sstep T)) row calls before x after :
  observe (sqlite_cursor T) {| sr_steps := steps; sr_row := row |} calls = before ++ GotCurrent x :: after ->
  x = match nexts before with [] => row | _ => last_next before end.
Proof.
  revert steps row calls. induction before as [|a before IH]; intros steps row calls H.
  - destruct calls as [|k calls]; [discriminate|]. destruct k; cbn [observe] in H.
    + cbn [sqlite_cursor c_next] in H. destruct (sr_next _). discriminate.
    + cbn in H. injection H as <- _. reflexivity.
  - destruct calls as [|k calls]; [discriminate|]. destruct k; cbn [observe] in H.
    + cbn [sqlite_cursor c_next] in H. destruct (sr_next _) as [y [steps' row']] eqn:E. cbn in H.
      injection H as <- H. specialize (IH _ _ _ H). cbn [nexts].
      assert (row' = match y with Ok (Some z) => Some z | _ => None end) as Hr.
      { unfold sr_next in E. cbn [sr_steps] in E. destruct steps as [|[z|e] steps].
        - injection E as <- _ <-. reflexivity.
        - injection E as <- _ <-. reflexivity.
        - injection E as <- _ <-. reflexivity. }
      unfold last_next in *. cbn [nexts]. destruct (nexts before) as [|n ns] eqn:En.
      * cbn [last]. rewrite IH, Hr. destruct y as [[z|]| |]; reflexivity.
      * rewrite IH. reflexivity.
    + cbn in H. injection H as <- H. specialize (IH _ _ _ H). unfold last_next in *. cbn [nexts]. exact IH.
Qed.

Lemma sqlite_current {T} (steps : list (sstep T)) calls :
  current_is_last (observe (sqlite_cursor T) (sr_new steps) calls).
Proof.
  intros before x after H. unfold sr_new in H. rewrite (sqlite_observe _ _ _ _ _ _ H).
  unfold last_next. destruct (nexts before); reflexivity.
Qed.

Lemma sqlite_done {T} (row : option T) calls :
  nexts (observe (sqlite_cursor T) {| sr_steps := []; sr_row := row |} calls) =
  repeat (Ok None) (List.length (nexts (observe (sqlite_cursor T) {| sr_steps := []; sr_row := row |} calls))).
Proof.
  revert row. induction calls as [|k calls IH]; intros row; [reflexivity|].
  destruct k; cbn [observe sqlite_cursor c_next sr_next sr_steps nexts List.length repeat].
  - f_equal. apply IH.
  - apply IH.
Qed.

Lemma sqlite_visits {T} (rows : list T) row calls :
  visits rows (nexts (observe (sqlite_cursor T) {| sr_steps := map SRow rows; sr_row := row |} calls)).
Proof.
  revert rows row. induction calls as [|k calls IH]; intros rows row; [reflexivity|].
  destruct k; cbn [observe sqlite_cursor c_next nexts].
  - destruct rows as [|x rows]; cbn [map]; unfold sr_next; cbn [sr_steps nexts].
    + unfold visits. cbn [List.length map app repeat firstn]. f_equal.
      rewrite sqlite_done at 1. set (n := List.length _).
      rewrite <- (app_nil_l (repeat (Ok None) n)) at 2.
      rewrite firstn_all2; [reflexivity|]. cbn. rewrite repeat_length. lia.
    + unfold visits. cbn [List.length map app firstn]. f_equal.
      specialize (IH rows (Some x)). unfold visits in IH. rewrite IH at 1.
      symmetry. rewrite <- (Nat.add_1_r (List.length _)). apply firstn_more.
  - apply IH.
Qed.

Lemma sqlite_fails {T} (rows : list T) e rest row calls :
  visits_until rows e
    (nexts (observe (sqlite_cursor T) {| sr_steps := map SRow rows ++ SFail e :: rest; sr_row := row |} calls)).
Proof.
  revert rows row. induction calls as [|k calls IH]; intros rows row; [reflexivity|].
  destruct k; cbn [observe sqlite_cursor c_next nexts].
  - destruct rows as [|x rows]; cbn [map app]; unfold sr_next; cbn [sr_steps nexts].
    + unfold visits_until. cbn [List.length map app firstn]. f_equal.
      rewrite sqlite_done at 1. set (n := List.length _).
      rewrite <- (Nat.add_1_r n).
      rewrite <- (app_nil_l (repeat (Ok None) (n + 1))). rewrite firstn_more. cbn [app].
      rewrite firstn_all2; [reflexivity|]. rewrite repeat_length. lia.
    + unfold visits_until. cbn [List.length map app firstn]. f_equal.
      specialize (IH rows (Some x)). unfold visits_until in IH. rewrite IH at 1.
      set (n := List.length _).
      rewrite <- (Nat.add_1_r n).
      change (Err e :: repeat (Ok None) n) with ([@Err (option T) e] ++ repeat (Ok None) n).
      change (Err e :: repeat (Ok None) (n + 1)) with ([@Err (option T) e] ++ repeat (Ok None) (n + 1)).
      rewrite !app_assoc. symmetry. apply firstn_more.
  - apply IH.
Qed.

(** * Collecting *)

Lemma mapped_cons {R B} (f : R -> outcome B) x rows o b :
  f x = Ok b -> mapped_to f rows o -> mapped_to f (x :: rows) (omap (cons b) o).
Proof.
  intros Hb H. destruct H as [rows ys H|before z after ys e H He|before z after ys H He]; cbn [omap obind].
  - constructor. constructor; assumption.
  - apply (mapped_error f (x :: before) z after (b :: ys)); [constructor; assumption|assumption].
  - apply (mapped_panic f (x :: before) z after (b :: ys)); [constructor; assumption|assumption].
Qed.

Lemma mapped_det {R B} (f : R -> outcome B) rows o o' : mapped_to f rows o -> mapped_to f rows o' -> o = o'.
Proof.
  revert o o'. induction rows as [|x rows IH]; intros o o' H H'.
  - inversion H as [? ? F| |]; subst; [|destruct before; discriminate..].
    inversion F; subst. inversion H' as [? ? F'| |]; subst; [|destruct before; discriminate..].
    inversion F'. reflexivity.
  - assert (forall q, mapped_to f (x :: rows) q ->
       (exists b q', f x = Ok b /\ mapped_to f rows q' /\ q = omap (cons b) q') \/
       (exists e, f x = Err e /\ q = Err e) \/ (f x = Panic /\ q = Panic)) as Inv.
    { intros q Q. inversion Q as [r ys F|before z after ys e F E Heq|before z after ys F E Heq]; subst.
      - inversion F; subst. left. exists y, (Ok l'). split; [assumption|]. split; [constructor; assumption|reflexivity].
      - destruct before as [|w before]; cbn in Heq; injection Heq as Hw1 Hw2; subst.
        + right. left. eauto.
        + inversion F; subst. left. exists y, (Err e). split; [assumption|].
          split; [eapply mapped_error; eassumption|reflexivity].
      - destruct before as [|w before]; cbn in Heq; injection Heq as Hw1 Hw2; subst.
        + right. right. auto.
        + inversion F; subst. left. exists y, Panic. split; [assumption|].
          split; [eapply mapped_panic; eassumption|reflexivity]. }
    destruct (Inv _ H) as [(b & q & E1 & Q & ->)|[(e & E1 & ->)|(E1 & ->)]];
    destruct (Inv _ H') as [(b' & q' & E2 & Q' & ->)|[(e' & E2 & ->)|(E2 & ->)]]; try congruence.
    rewrite (IH _ _ Q Q'). congruence.
Qed.

Lemma vec_collect {T B} (f : T -> outcome B) (rows : list T) pre :
  forall fuel, List.length rows < fuel ->
  exists o, collect fuel (vec_cursor T) f {| vr_rows := pre ++ rows; vr_idx := List.length pre |} = Some o /\ mapped_to f rows o.
Proof.
  revert pre. induction rows as [|x rows IH]; intros pre [|fuel] Hf; try (exfalso; cbn in Hf; lia).
  - exists (Ok []). cbn [collect]. unfold map_next. cbn [vec_cursor c_next]. unfold vr_next. cbn [vr_rows vr_idx].
    rewrite (proj2 (nth_error_None _ _)) by (rewrite app_nil_r; lia). split; [reflexivity|]. constructor. constructor.
  - cbn [collect]. unfold map_next. cbn [vec_cursor c_next]. unfold vr_next. cbn [vr_rows vr_idx].
    rewrite nth_error_app2 by lia. rewrite Nat.sub_diag. cbn [nth_error].
    destruct (f x) as [b|e|] eqn:E; cbn [omap obind].
    + destruct (IH (pre ++ [x]) fuel) as (o & Ho & Hm); [cbn in Hf; lia|].
      rewrite app_length, <- app_assoc in Ho. cbn [List.length app] in Ho. rewrite Nat.add_1_r in Ho.
      fold (vec_cursor T). rewrite Ho. cbn [option_map]. eexists. split; [reflexivity|].
      apply mapped_cons; assumption.
    + exists (Err e). split; [reflexivity|]. apply (mapped_error f [] x rows []); [constructor|assumption].
    + exists Panic. split; [reflexivity|]. apply (mapped_panic f [] x rows []); [constructor|assumption].
Qed.

Lemma sqlite_collect {T B} (f : T -> outcome B) (rows : list T) row :
  forall fuel, List.length rows < fuel ->
  exists o, collect fuel (sqlite_cursor T) f {| sr_steps := map SRow rows; sr_row := row |} = Some o /\ mapped_to f rows o.
Proof.
  revert row. induction rows as [|x rows IH]; intros row [|fuel] Hf; try (exfalso; cbn in Hf; lia).
  - exists (Ok []). split; [reflexivity|]. constructor. constructor.
  - cbn [collect map]. unfold map_next. cbn [sqlite_cursor c_next]. unfold sr_next. cbn [sr_steps].
    destruct (f x) as [b|e|] eqn:E; cbn [omap obind].
    + destruct (IH (Some x) fuel) as (o & Ho & Hm); [cbn in Hf; lia|]. fold (sqlite_cursor T). rewrite Ho.
      cbn [option_map]. eexists. split; [reflexivity|]. apply mapped_cons; assumption.
    + exists (Err e). split; [reflexivity|]. apply (mapped_error f [] x rows []); [constructor|assumption].
    + exists Panic. split; [reflexivity|]. apply (mapped_panic f [] x rows []); [constructor|assumption].
Qed.

Lemma sqlite_collect_fails {T B} (f : T -> outcome B) (rows : list T) e rest row ys :
  Forall2 (fun x y => f x = Ok y) rows ys ->
  forall fuel, List.length rows < fuel ->
  collect fuel (sqlite_cursor T) f {| sr_steps := map SRow rows ++ SFail e :: rest; sr_row := row |} = Some (Err e).
Proof.
  intros F. revert row. induction F as [|x y rows ys Hx F IH]; intros row [|fuel] Hf; try (exfalso; cbn in Hf; lia).
  - reflexivity.
  - cbn [collect map app]. unfold map_next. cbn [sqlite_cursor c_next]. unfold sr_next. cbn [sr_steps].
    rewrite Hx. cbn [omap obind]. fold (sqlite_cursor T). rewrite IH by (cbn in Hf; lia). reflexivity.
Qed.

(** * Buffered rows *)

Lemma read_cells_iff r tys i vs :
  read_cells r i tys = Ok vs <->
  List.length vs = List.length tys /\
  forall j ty, nth_error tys j = Some ty -> exists v, nth_error vs j = Some v /\ br_get r (i + j) ty = Ok v.
Proof.
  revert i vs. induction tys as [|t tys IH]; intros i vs.
  - cbn. split.
    + intros [= <-]. split; [reflexivity|]. intros [|j] ty; discriminate.
    + intros (L & _). destruct vs; [reflexivity|discriminate].
  - cbn [read_cells]. split.
    + intros H. destruct (br_get r i t) as [v|e|] eqn:E; try discriminate. cbn [obind] in H.
      destruct (read_cells r (S i) tys) as [us|e|] eqn:Er; try discriminate. cbn in H. injection H as <-.
      apply IH in Er as [L N]. split; [cbn; congruence|]. intros [|j] ty Hj.
      * cbn in Hj. injection Hj as <-. exists v. rewrite Nat.add_0_r. auto.
      * cbn in Hj. destruct (N _ _ Hj) as (w & W1 & W2). exists w. rewrite Nat.add_succ_r. auto.
    + intros (L & N). destruct vs as [|v vs]; [discriminate|].
      destruct (N 0 t eq_refl) as (w & W1 & W2). cbn in W1. injection W1 as <-. rewrite Nat.add_0_r in W2. rewrite W2.
      cbn [obind]. assert (read_cells r (S i) tys = Ok vs) as ->.
      { apply IH. split; [cbn in L; congruence|]. intros j ty Hj. destruct (N (S j) ty Hj) as (u & U1 & U2).
        exists u. rewrite Nat.add_succ_r in U2. auto. }
      reflexivity.
Qed.

Lemma vecrow_new_iff r tys vs :
  vecrow_new r tys = Ok vs <->
  br_len r = List.length tys /\ List.length vs = List.length tys /\
  forall j ty, nth_error tys j = Some ty -> exists v, nth_error vs j = Some v /\ br_get r j ty = Ok v.
Proof.
  unfold vecrow_new. destruct (Nat.eqb_spec (br_len r) (List.length tys)) as [E|E].
  - rewrite read_cells_iff. cbn. tauto.
  - split; [discriminate|]. intros (E' & _). contradiction.
Qed.

Lemma vecrow_alike r tys vs : typed_row r -> vecrow_new r tys = Ok vs -> reads_alike tys r (vecrow vs).
Proof.
  intros Ty H. apply vecrow_new_iff in H as (L & Lv & N). split; [cbn; congruence|].
  intros i ty Hi. destruct (N _ _ Hi) as (v & V1 & V2). cbn. unfold row_get. rewrite V1, V2.
  destruct (Ty _ _ _ V2) as [->|E]; [reflexivity|]. unfold is_compatible. rewrite E.
  destruct (sqltype_eqb_spec ty ty); [reflexivity|contradiction].
Qed.

Lemma sqlite_row_typed pj cells : typed_row (sqlite_row pj cells).
Proof.
  intros i ty v H. cbn in H. destruct (nth_error cells i) as [x|]; [|discriminate].
  unfold sqlite_read in H. destruct x; [injection H as <-; left; reflexivity|..];
  right; destruct ty; cbn in H; try discriminate;
    try (injection H as <-; reflexivity);
    unfold parsed in H;
    repeat match type of H with context [match ?z with _ => _ end] => destruct z eqn:?; try discriminate end;
    try (injection H as <-; reflexivity).
Qed.

Lemma buffered_collect {B} (f : brow -> outcome B) (rows : list (list SqlVal)) pre :
  forall fuel, List.length rows < fuel ->
  exists o, collect fuel buffered_cursor f {| vr_rows := pre ++ rows; vr_idx := List.length pre |} = Some o /\
    mapped_to f (map vecrow rows) o.
Proof.
  revert pre. induction rows as [|x rows IH]; intros pre [|fuel] Hf; try (exfalso; cbn in Hf; lia).
  - exists (Ok []). cbn [collect]. unfold map_next. cbn [buffered_cursor c_next]. unfold vr_next. cbn [vr_rows vr_idx].
    rewrite (proj2 (nth_error_None _ _)) by (rewrite app_nil_r; lia). split; [reflexivity|]. constructor. constructor.
  - cbn [collect]. unfold map_next. cbn [buffered_cursor c_next]. unfold vr_next. cbn [vr_rows vr_idx].
    rewrite nth_error_app2 by lia. rewrite Nat.sub_diag. cbn [nth_error omap obind option_map].
    destruct (f (vecrow x)) as [b|e|] eqn:E; cbn [omap obind].
    + destruct (IH (pre ++ [x]) fuel) as (o & Ho & Hm); [cbn in Hf; lia|].
      rewrite app_length, <- app_assoc in Ho. cbn [List.length app] in Ho. rewrite Nat.add_1_r in Ho.
      fold buffered_cursor. rewrite Ho. cbn [option_map]. eexists. split; [reflexivity|].
      cbn [map]. apply mapped_cons; assumption.
    + exists (Err e). split; [reflexivity|]. cbn [map]. apply (mapped_error f [] (vecrow x) _ []); [constructor|assumption].
    + exists Panic. split; [reflexivity|]. cbn [map]. apply (mapped_panic f [] (vecrow x) _ []); [constructor|assumption].
Qed.

Lemma mapped_alike {B} tys (f : brow -> outcome B) rows rows' o :
  looks_at tys f -> Forall2 (reads_alike tys) rows rows' -> mapped_to f rows' o -> mapped_to f rows o.
Proof.
  intros Lf F. revert o. induction F as [|r r' rows rows' Hr F IH]; intros o H; [assumption|].
  inversion H as [q ys G|before z after ys e G E Heq|before z after ys G E Heq]; subst.
  - inversion G; subst. apply (mapped_cons f r rows (Ok l') y); [rewrite (Lf _ _ Hr); assumption|].
    apply IH. constructor. assumption.
  - destruct before as [|w before]; cbn in Heq; injection Heq as Hw1 Hw2; subst.
    + apply (mapped_error f [] r rows []); [constructor|rewrite (Lf _ _ Hr); assumption].
    + inversion G; subst. apply (mapped_cons f r rows (Err e) y); [rewrite (Lf _ _ Hr); assumption|].
      apply IH. eapply mapped_error; eassumption.
  - destruct before as [|w before]; cbn in Heq; injection Heq as Hw1 Hw2; subst.
    + apply (mapped_panic f [] r rows []); [constructor|rewrite (Lf _ _ Hr); assumption].
    + inversion G; subst. apply (mapped_cons f r rows Panic y); [rewrite (Lf _ _ Hr); assumption|].
      apply IH. eapply mapped_panic; eassumption.
Qed.
