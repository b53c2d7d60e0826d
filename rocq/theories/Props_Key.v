(** Property theorems C56: the key returned for an inserted row. *)
From Verif Require Import Base SqlVal Sql SqlStmt Query QuerySpec Stmt StmtSpec Adb AdbSpec LiteralSpec Ddl DdlSpec
  Backend BackendSpec Turso SqliteSem MigrateSpec SqliteData SqliteKey DataCalls KeyCall StoredSpec
  StoredRel MigrateProofs MigrateReady StoredProofs StoredMain KeyProofs
  Props_Schema Props_Query Props_Filter Props_TursoScript Props_Migrations Props_Migrate Props_Stored.

(** A number equals itself. *)
Definition numbers_equal (E : engine) : Prop := forall z, equal E (VBigInt z) (VBigInt z).

(** ** SQLite *)
(** Unless the row may not be added, it is added and its value for the column asked for is
    returned, if no column of the table is called rowid, in whatever letters. *)
Theorem C56_key_partial : forall json_text kw dl conv veq read strict E fresh d D db n t cols vs c ty,
  stores kw dl conv veq read strict E -> usable d -> keeps json_text E conv strict d D db ->
  numbers_fit json_text fresh d db -> numbers_equal E -> call_fits json_text E dl d D (InsertOnly n cols vs) ->
  In (n, t) (a_tables d) -> In c (t_cols t) -> type_denotes (c_type c) = inl (TyId ty) ->
  (forall c, In c (t_cols t) -> upper (c_name c) <> "ROWID"%string) ->
  let call := insert_returning_pk json_text kw dl conv veq read E fresh db n cols (c_name c) ty vs in
  exists b r, mget n db = Some b /\ let D' := with_table D n (D n ++ [r]) in
  asks json_text E d (fresh b) (InsertOnly n cols vs) D D'
  /\ ((exists v db', call = (Ok v, db') /\ field (c_name c) r = Some v /\ keeps json_text E conv strict d D' db')
      \/ (call = (Err (DbError 1), db) /\ ~ legal E d D')).
Proof.
  intros json_text kw dl conv veq read strict E fresh d D db n t cols vs c ty S U KP NF NE CF Ht Hc T NR call. subst call.
  destruct (C55_call json_text kw dl conv veq read strict E fresh d D db (InsertOnly n cols vs) S U KP NF CF) as (b & D' & Hb & A & O). cbn [call_table] in Hb.
  pose proof A as (t' & extra & Ht' & G & ED). exists b, (combine cols vs ++ extra). split; [assumption|]. cbv zeta. rewrite <- ED. split; [assumption|].
  unfold insert_returning_pk. destruct O as [(db' & -> & K & _)|[-> NL]]; [left|right; auto].
  destruct S as [SQ SX SE SC SS], U as [UW UF UK].
  destruct (kp_tables _ _ _ _ _ _ _ K n t Ht) as (b' & Hb' & TI & _).
  pose proof (kp_rows _ _ _ _ _ _ _ K n) as HR. rewrite Hb' in HR.
  pose proof (kp_fit _ _ _ _ _ _ _ K n t Ht) as HF.
  assert (DN : D' n = D n ++ [combine cols vs ++ extra]) by (rewrite ED; unfold with_table; now rewrite String.eqb_refl).
  rewrite DN in HR, HF.
  assert (RF : row_fits json_text t (combine cols vs ++ extra)).
  { rewrite Forall_forall in HF. apply HF. apply in_or_app. right. now left. }
  pose proof HR as HR2. apply Forall2_app_inv_l in HR2 as (ys & l1 & _ & R2 & EB). inversion R2 as [|? y ? l2 Ry R3]; subst l1 x l. inversion R3; subst l2. clear R2 R3.
  destruct (number_known json_text strict d UW n t b b' _ y ys Ht TI EB RF Ry fresh) as (z & LN).
  destruct (number_found json_text E veq strict SC NE d n t b b' (D n) _ Ht TI HR HF) with (fresh := fresh) (z := z) as (y' & BN & Ry'); auto.
  { intros c0 i j r s x0 y0 H1 H2 H3 H4 H5. apply (lg_keys _ _ _ (kp_legal _ _ _ _ _ _ _ K) n t c0 i j r s x0 y0 Ht H1 H2 H3); now rewrite DN. }
  destruct (fits_has_get json_text t _ y' c RF Ry' Hc) as (v & l & Fv & Gl & W).
  destruct (StoredProofs.declared strict t b' c TI Hc) as (k & Ek & _).
  assert (WT : wf_table t) by (destruct UW as [_ UW]; now destruct (UW n t Ht)).
  exists v, db'. split; [|auto]. f_equal. unfold read_key.
  rewrite (key_text_reads kw dl n (c_name c) SQ).
  - rewrite Hb, Hb', Ek, LN, BN, Gl. exact (reads_cell json_text t _ y' c ty v l WT RF Hc T Fv W Gl).
  - exact (name_ok d UW UF n t Ht).
  - pose proof (col_names_ok d UF n t [c_name c] Ht) as X. assert (Y : Forall (fun c => identifier c = true) [c_name c]).
    { apply X. intros m [<-|[]]. now exists c. } now inversion Y.
Qed.
Print Assumptions C56_key_partial.

(** ** Turso *)
(** The number is returned itself: the key of the new row, if that is the one key of the
    table and an integer. *)
Theorem C56_turso : forall json_text kw dl conv veq read strict E fresh d D db n t cols vs c ty,
  stores kw dl conv veq read strict E -> usable d -> keeps json_text E conv strict d D db ->
  numbers_fit json_text fresh d db -> call_fits json_text E dl d D (InsertOnly n cols vs) ->
  In (n, t) (a_tables d) -> In c (t_cols t) -> type_denotes (c_type c) = inl (TyId ty) ->
  c_pk c = true -> (forall c', In c' (t_cols t) -> c_pk c' = true -> c' = c) -> word c = "INTEGER"%string ->
  let call := turso_insert_returning_pk json_text kw dl conv veq read E fresh db n cols ty vs in
  exists b r, mget n db = Some b /\ let D' := with_table D n (D n ++ [r]) in
  asks json_text E d (fresh b) (InsertOnly n cols vs) D D'
  /\ ((exists v db', call = (Ok v, db') /\ field (c_name c) r = Some v /\ keeps json_text E conv strict d D' db')
      \/ (call = (Err (DbError 1), db) /\ ~ legal E d D')).
Proof.
  intros json_text kw dl conv veq read strict E fresh d D db n t cols vs c ty S U KP NF CF Ht Hc T P ONE W call. subst call.
  destruct (C55_call json_text kw dl conv veq read strict E fresh d D db (InsertOnly n cols vs) S U KP NF CF) as (b & D' & Hb & A & O). cbn [call_table] in Hb.
  pose proof A as (t' & extra & Ht' & G & ED). exists b, (combine cols vs ++ extra). split; [assumption|]. cbv zeta. rewrite <- ED. split; [assumption|].
  unfold turso_insert_returning_pk. destruct O as [(db' & -> & K & _)|[-> NL]]; [left|right; auto].
  destruct S as [SQ SX SE SC SS], U as [UW UF UK].
  destruct (kp_tables _ _ _ _ _ _ _ K n t Ht) as (b' & Hb' & TI & _).
  pose proof (kp_rows _ _ _ _ _ _ _ K n) as HR. rewrite Hb' in HR.
  pose proof (kp_fit _ _ _ _ _ _ _ K n t Ht) as HF.
  assert (DN : D' n = D n ++ [combine cols vs ++ extra]) by (rewrite ED; unfold with_table; now rewrite String.eqb_refl).
  rewrite DN in HR, HF.
  assert (RF : row_fits json_text t (combine cols vs ++ extra)).
  { rewrite Forall_forall in HF. apply HF. apply in_or_app. right. now left. }
  apply Forall2_app_inv_l in HR as (ys & l1 & _ & R2 & EB). inversion R2 as [|? y ? l2 Ry R3]; subst l1 x l. inversion R3; subst l2. clear R2 R3.
  destruct (number_known json_text strict d UW n t b b' _ y ys Ht TI EB RF Ry fresh) as (z & LN).
  destruct (fits_has_get json_text t _ y c RF Ry Hc) as (v & l & Fv & _ & _).
  exists v, db'. split; [|auto]. f_equal. unfold turso_read_key.
  change (parse_last turso_key_text) with true. cbv iota. rewrite Hb, Hb', LN.
  exact (number_is_key json_text strict d UW n t b b' _ y ys c ty v fresh z Ht TI EB RF Ry Hc P ONE W T Fv LN).
Qed.
Print Assumptions C56_turso.

(** ** A column called rowid *)
(** A note with such a column; two rows.  The query for the row number asks that column. *)
Definition ky_auto : AColumn :=
  {| c_name := "id"; c_type := KnownId (TyId TBigInt); c_nullable := false; c_pk := true; c_auto := true; c_unique := false; c_default := None; c_ref := None |}.
Definition ky_model (f : string) : ADB :=
  {| a_tables := [("note", {| t_name := "note"; t_cols := [ky_auto; col f TBigInt] |})]; a_types := [] |}.
Definition ky_db (strict : bool) (f : string) (rows : list row) : edb :=
  [("note", {| b_cols := [{| k_name := "id"; k_type := ["INTEGER"]; k_notnull := true; k_pk := true; k_unique := false; k_default := None |};
                          {| k_name := f; k_type := ["INTEGER"]; k_notnull := true; k_pk := false; k_unique := false; k_default := None |}];
               b_fks := []; b_strict := strict; b_rows := rows |})]%string.
Definition ky_row (f : string) (id z : Z) : Sql.row := [(f, VBigInt z); ("id", VBigInt id)]%string.
Definition ky_rows (f : string) (l : list (Z * Z)) : Sql.db := fun n => if String.eqb n "note" then map (fun p => ky_row f (fst p) (snd p)) l else [].
Definition ky_insert json_text strict f (l : list (Z * Z)) (z : Z) :=
  insert_returning_pk json_text ddl_kw sqlite_like ex_conv st_veq ex_read st_engine st_fresh
    (ky_db strict f (map (fun p => [(f, LInteger (snd p)); ("id"%string, LInteger (fst p))]) l)) "note" [f] "id" TBigInt [VBigInt z].

Definition ky_name (f : string) : Prop := f = "rowid"%string \/ f = "size"%string.
Example ky_usable : forall f, ky_name f -> usable (ky_model f).
Proof.
  intros f Nf. constructor.
  - split; [repeat constructor|]. intros n t [[= <- <-]|[]]. split; [reflexivity|]. split; [|intros c v [<-|[<-|[]]]; discriminate].
    destruct Nf as [-> | ->]; repeat constructor; cbn; intuition discriminate.
  - destruct Nf as [-> | ->]; fine_tac.
  - intros n t c g [[= <- <-]|[]] [<-|[<-|[]]] (r & Er & _); discriminate Er.
Qed.
Lemma ky_takes c (z : Z) : type_denotes (c_type c) = inl (TyId TBigInt) -> (- 9223372036854775808 <= z <= 9223372036854775807)%Z ->
  column_takes Some c (VBigInt z).
Proof.
  intros T R. exists TBigInt. split; [assumption|]. split; [now right|]. split; [cbn; lia|].
  split; [intros (? & ? & X); discriminate X|]. split; discriminate.
Qed.
Example ky_kept : forall strict f, ky_name f ->
  keeps Some st_engine ex_conv strict (ky_model f) (ky_rows f [(1, 2)]%Z) (ky_db strict f [[(f, LInteger 2); ("id"%string, LInteger 1)]]).
Proof.
  intros strict f Nf. constructor.
  - repeat constructor.
  - intros n t [[= <- <-]|[]]. eexists. split; [reflexivity|]. split.
    + split; [reflexivity|]. split; [destruct Nf as [-> | ->]; repeat constructor; cbn; intuition discriminate|]. split; [|split].
      * intros c [<-|[<-|[]]]; eexists; [split; [left; reflexivity|repeat split]|split; [right; left; reflexivity|repeat split]].
      * intros k [<-|[<-|[]]]; eexists; [split; [left; reflexivity|repeat split]|split; [right; left; reflexivity|repeat split]].
      * intros g. split; [intros []|]. intros (c & [<-|[<-|[]]] & (r & Er & _)); discriminate Er.
    + intros r [<-|[]]. split; [split|].
      * destruct Nf as [-> | ->]; repeat constructor; cbn; intuition discriminate.
      * intros n. unfold get. cbn [find fst]. split.
        -- intros H. destruct (String.eqb f n) eqn:E1; [apply String.eqb_eq in E1; exists (col f TBigInt); cbn; auto|].
           destruct (String.eqb "id" n) eqn:E2; [apply String.eqb_eq in E2; exists ky_auto; cbn; auto|]. now elim H.
        -- intros (c & [<-|[<-|[]]] & <-); cbn [c_name ky_auto col]; rewrite ?String.eqb_refl; [|discriminate].
           destruct Nf as [-> | ->]; discriminate.
      * intros c v [<-|[<-|[]]] G; (assert (I : exists z, v = LInteger z) by
          (unfold get in G; cbn in G; destruct Nf as [-> | ->]; cbn in G; injection G as <-; eauto));
          destruct I as (z & ->); split; try discriminate; destruct strict; reflexivity.
  - intros n. unfold ky_db. cbn [mget]. unfold ky_rows. destruct (String.eqb_spec n "note") as [->|Nn].
    + cbn. repeat constructor.
    + rewrite (proj2 (keqb_neq n "note") Nn). reflexivity.
  - intros n t [[= <- <-]|[]]. cbn. constructor; [|constructor]. split; [|split].
    + destruct Nf as [-> | ->]; repeat constructor; cbn; intuition discriminate.
    + intros n. cbn. split; [intros [<-|[<-|[]]]; [exists (col f TBigInt)|exists ky_auto]; cbn; auto|].
      intros (c & [<-|[<-|[]]] & <-); cbn; auto.
    + repeat constructor.
      * exists (col f TBigInt). split; [cbn; auto|]. split; [reflexivity|]. apply ky_takes; [reflexivity|lia].
      * exists ky_auto. split; [cbn; auto|]. split; [reflexivity|]. apply ky_takes; [reflexivity|lia].
  - intros n b H. right. unfold ky_db in H. cbn [mget] in H. destruct (keqb n "note"); [injection H as <-; reflexivity|discriminate H].
  - constructor.
    + intros n t c i j r s x y [[= <- <-]|[]] _ _ L H1 H2. exfalso. cbn in H1, H2. destruct j as [|[|j]]; [lia|discriminate H2|discriminate H2].
    + intros n t c g r x [[= <- <-]|[]] [<-|[<-|[]]] (q & Eq & _); discriminate Eq.
Qed.
Example ky_numbers : forall strict f, numbers_fit Some st_fresh (ky_model f) (ky_db strict f [[(f, LInteger 2); ("id"%string, LInteger 1)]]).
Proof.
  intros strict f n t b c [[= <- <-]|[]] Hb [<-|[<-|[]]] A; [|discriminate A]. exists (VBigInt (st_fresh b)). injection Hb as <-.
  split; [|reflexivity]. apply ky_takes; [reflexivity|cbn; lia].
Qed.
Example ky_call : forall f D z, ky_name f -> (- 9223372036854775808 <= z <= 9223372036854775807)%Z ->
  call_fits Some st_engine sqlite_like (ky_model f) D (InsertOnly "note" [f] [VBigInt z]).
Proof.
  intros f D z Nf R. eexists. split; [left; reflexivity|]. split; [repeat constructor; cbn; tauto|]. split.
  - repeat constructor. exists (col f TBigInt). split; [cbn; auto|]. split; [reflexivity|]. now apply ky_takes.
  - intros c [<-|[<-|[]]]; [right; split; reflexivity|left; left; reflexivity].
Qed.
Example ky_equal : numbers_equal st_engine.
Proof. intros z. unfold equal, compare3. cbn. now rewrite Z.compare_refl. Qed.
(** With another name the key of the new row is returned. *)
Example C56_case : forall strict,
  ky_insert Some strict "size" [(1, 2)]%Z 5
  = (Ok (VBigInt 2), ky_db strict "size" [[("size", LInteger 2); ("id", LInteger 1)]; [("size", LInteger 5); ("id", LInteger 2)]]%string).
Proof. intros []; reflexivity. Qed.

(** Turso returns the number whatever the columns are called. *)
Example C56_turso_case : forall strict f, ky_name f ->
  turso_insert_returning_pk Some ddl_kw sqlite_like ex_conv st_veq ex_read st_engine st_fresh
    (ky_db strict f [[(f, LInteger 2); ("id"%string, LInteger 1)]]) "note" [f] TBigInt [VBigInt 5]
  = (Ok (VBigInt 2), ky_db strict f [[(f, LInteger 2); ("id", LInteger 1)]; [(f, LInteger 5); ("id", LInteger 2)]]%string)
  /\ c_pk ky_auto = true /\ word ky_auto = "INTEGER"%string.
Proof. intros [] f [-> | ->]; repeat split; reflexivity. Qed.

(** Finding: on SQLite a model whose table has a column called rowid, besides a generated
    key, gets the wrong key or an error back after an insert.  The statement that asks for
    the key of the row with ROWID = last_insert_rowid() compares that column with the row's
    number.  When another row has the number in the column, its key is returned: the object
    saved then has the key of the other row, and saving it again overwrites that row.  When no row
    has it, the save fails although the row was added.  (sqlite.rs:305-309; [_rowid_] and
    [oid] can be hidden in the same way, so the safe text is SELECT last_insert_rowid() or
    RETURNING.) *)
Theorem C56_key_refuted :
  let f := "rowid"%string in let d := ky_model f in let D := ky_rows f [(1, 2)]%Z in
  forall strict, let db := ky_db strict f [[(f, LInteger 2); ("id"%string, LInteger 1)]] in
  stores ddl_kw sqlite_like ex_conv st_veq ex_read strict st_engine /\ usable d /\ keeps Some st_engine ex_conv strict d D db
  /\ numbers_fit Some st_fresh d db /\ numbers_equal st_engine
  /\ (forall z, (- 9223372036854775808 <= z <= 9223372036854775807)%Z ->
        call_fits Some st_engine sqlite_like d D (InsertOnly "note" [f] [VBigInt z]))
  /\ (exists db', ky_insert Some strict f [(1, 2)]%Z 5 = (Ok (VBigInt 1), db')
        /\ db' = ky_db strict f [[(f, LInteger 2); ("id", LInteger 1)]; [(f, LInteger 5); ("id", LInteger 2)]]%string)
  /\ (exists e db', ky_insert Some strict f [(1, 7)]%Z 5 = (Err e, db')
        /\ db' = ky_db strict f [[(f, LInteger 7); ("id", LInteger 1)]; [(f, LInteger 5); ("id", LInteger 2)]]%string).
Proof.
  intros f d D strict db. assert (Nf : ky_name f) by now left.
  split; [apply st_ok|]. split; [now apply ky_usable|]. split; [now apply ky_kept|]. split; [apply ky_numbers|]. split; [exact ky_equal|].
  split; [intros z R; now apply ky_call|]. split; [|exists (DbError 3)]; eexists; (split; [|reflexivity]); destruct strict; reflexivity.
Qed.
Print Assumptions C56_key_refuted.
