(** Queries of a model on SQLite. *)
From Coq Require Import Permutation Sorting.Sorted.
From Verif Require Import Base SqlVal Adb AdbSpec Sql SqlStmt Query QuerySpec Stmt StmtSpec LiteralSpec Ddl DdlSpec
  Backend BackendSpec Turso SqliteSem MigrateSpec SqliteData SqliteKey DataCalls KeyCall StoredSpec StoredRel MigrateProofs StoredProofs StoredMain StoredLoad
  Conn ConnProofs Many ManyProofs Codegen CodegenSpec CodegenProofs Props_Models Obj ObjSpec ObjProofs Props_Key Saved SavedSpec SavedProofs Loaded LoadedSpec.

(** * Sorting *)
Lemma sort_exists {A} (P : A -> Prop) (R : A -> A -> Prop) :
  (forall a b, P a -> P b -> R a b \/ R b a) -> (forall a b c, P a -> P b -> P c -> R a b -> R b c -> R a c) ->
  forall l, Forall P l -> exists l', Permutation l l' /\ StronglySorted R l'.
Proof.
  intros T Tr. assert (Ins : forall a l, P a -> Forall P l -> StronglySorted R l -> exists l', Permutation (a :: l) l' /\ StronglySorted R l').
  { intros a l Pa. induction l as [|b l IH]; intros F S.
    - exists [a]. split; [reflexivity|repeat constructor].
    - inversion F as [|? ? Pb F']; subst. inversion S as [|? ? S' Sb]; subst. destruct (T a b Pa Pb) as [H|H].
      + exists (a :: b :: l). split; [reflexivity|]. constructor; [assumption|]. constructor; [assumption|].
        rewrite Forall_forall in *. intros c Hc. apply (Tr a b c); auto.
      + destruct (IH F' S') as (l' & P1 & S1). exists (b :: l'). split; [rewrite perm_swap; now constructor|]. constructor; [assumption|].
        rewrite Forall_forall in *. intros c Hc. apply (Permutation_in c (Permutation_sym P1)) in Hc as [<-|Hc]; auto. }
  induction l as [|a l IH]; intros F; [exists []; split; constructor|]. inversion F as [|? ? Pa F']; subst.
  destruct (IH F') as (l1 & P1 & S1). destruct (Ins a l1 Pa) as (l' & P2 & S2); [rewrite Forall_forall in *; intros x Hx; apply F', (Permutation_in x (Permutation_sym P1) Hx)|assumption|].
  exists l'. split; [|assumption]. rewrite <- P2. now constructor.
Qed.

Section Order.
Variable E : engine.
Variable D : Sql.db.
Variable n : string.
Definition column_ordered (o : Order) : Prop :=
  (forall r, In r (D n) -> exists v, field (ord_column o) r = Some v)
  /\ (forall a b, in_column D n (ord_column o) a -> in_column D n (ord_column o) b -> e_ord E b a = CompOpp (e_ord E a b))
  /\ (forall a b c, in_column D n (ord_column o) a -> in_column D n (ord_column o) b -> in_column D n (ord_column o) c ->
        e_ord E a b <> Gt -> e_ord E b c <> Gt -> e_ord E a c <> Gt).
Lemma row_le_total os : Forall column_ordered os -> forall a b, In a (D n) -> In b (D n) -> row_le E os a b \/ row_le E os b a.
Proof.
  induction 1 as [|o os (C1 & C2 & _) _ IH]; intros a b Ha Hb; [left; exact I|]. cbn.
  destruct (C1 a Ha) as (x & Hx). destruct (C1 b Hb) as (y & Hy).
  assert (Ix : in_column D n (ord_column o) x) by (exists a; auto). assert (Iy : in_column D n (ord_column o) y) by (exists b; auto).
  pose proof (C2 x y Ix Iy) as O. destruct (e_ord E x y) eqn:Exy; cbn in O.
  - destruct (IH a b Ha Hb) as [H|H]; [left; exists x, y|right; exists y, x]; (split; [assumption|]; split; [assumption|]; cbn zeta; right; split; [destruct (ord_desc o); assumption|assumption]).
  - destruct (ord_desc o) eqn:Ed; [right; exists y, x|left; exists x, y]; (split; [assumption|]; split; [assumption|]; left; assumption).
  - destruct (ord_desc o) eqn:Ed; [left; exists x, y|right; exists y, x]; (split; [assumption|]; split; [assumption|]; left; assumption).
Qed.
Lemma ord_step (P : SqlVal -> Prop) x y z : P x -> P y -> P z ->
  (forall a b, P a -> P b -> e_ord E b a = CompOpp (e_ord E a b)) ->
  (forall a b c, P a -> P b -> P c -> e_ord E a b <> Gt -> e_ord E b c <> Gt -> e_ord E a c <> Gt) ->
  e_ord E x y <> Gt -> e_ord E y z <> Gt -> e_ord E x z = Lt \/ (e_ord E x z = Eq /\ e_ord E x y = Eq /\ e_ord E y z = Eq).
Proof.
  intros Px Py Pz O T H1 H2. pose proof (T x y z Px Py Pz H1 H2) as H3. destruct (e_ord E x z) eqn:Exz; [right|now left|contradiction].
  split; [reflexivity|]. pose proof (O x z Px Pz) as Ozx. rewrite Exz in Ozx. cbn in Ozx.
  assert (Z1 : e_ord E z y <> Gt) by (apply (T z x y); auto; congruence). assert (Z2 : e_ord E y x <> Gt) by (apply (T y z x); auto; congruence).
  rewrite (O y z Py Pz) in Z1. rewrite (O x y Px Py) in Z2. split; [destruct (e_ord E x y)|destruct (e_ord E y z)]; cbn in *; congruence.
Qed.
Lemma row_le_trans os : Forall column_ordered os -> forall a b c, In a (D n) -> In b (D n) -> In c (D n) ->
  row_le E os a b -> row_le E os b c -> row_le E os a c.
Proof.
  induction 1 as [|o os (C1 & C2 & C3) _ IH]; intros a b c Ha Hb Hc; [auto|]. cbn.
  intros (x & y & Hx & Hy & H1) (y' & z & Hy' & Hz & H2). rewrite Hy in Hy'. injection Hy' as <-. exists x, z. split; [assumption|]. split; [assumption|].
  assert (Ix : in_column D n (ord_column o) x) by (exists a; auto). assert (Iy : in_column D n (ord_column o) y) by (exists b; auto).
  assert (Iz : in_column D n (ord_column o) z) by (exists c; auto).
  destruct (ord_desc o).
  - destruct (ord_step _ z y x Iz Iy Ix C2 C3) as [L|(L1 & L2 & L3)]; [destruct H2 as [->|[-> _]]; discriminate|destruct H1 as [->|[-> _]]; discriminate|now left|].
    right. split; [assumption|]. destruct H1 as [F|[_ H1]]; [congruence|]. destruct H2 as [F|[_ H2]]; [congruence|]. exact (IH a b c Ha Hb Hc H1 H2).
  - destruct (ord_step _ x y z Ix Iy Iz C2 C3) as [L|(L1 & L2 & L3)]; [destruct H1 as [->|[-> _]]; discriminate|destruct H2 as [->|[-> _]]; discriminate|now left|].
    right. split; [assumption|]. destruct H1 as [F|[_ H1]]; [congruence|]. destruct H2 as [F|[_ H2]]; [congruence|]. exact (IH a b c Ha Hb Hc H1 H2).
Qed.
End Order.

(** * Loading *)
Section Load.
Context {U X : Type}.
Variable json_text : string -> option string.
Variable resolve : bool -> list string -> string -> option string.
Variable sem : ty -> codec U.
Variable s : sdef.
Variable g : dbobject.
Variable kw : string -> bool.
Variable dl : dialect.
Variable conv : bool -> list string -> lvalue -> option lvalue.
Variable veq : lvalue -> lvalue -> bool.
Variable read : bool -> string -> f64.
Variable strict : bool.
Variable E : engine.
Variable d : ADB.
Variable t : ATable.
Hypothesis DP : deployed json_text resolve sem s g kw dl conv veq read strict E d t.
Notation keeps := (keeps json_text E conv strict d).
Notation object := (@object U (many X)).
Notation cols := (map fst (dr_columns (do_result g))).
Notation tcols := (map (fun c => (fst c, cd_type _ (sem (snd c)))) (dr_columns (do_result g))).

Lemma query_answers_are D db x q : keeps D db -> query_fits E dl (do_table g) D x -> nonneg (q_limit x) -> StmtSpec.fits Sqlite x (q_limit x) D ->
  (sqlite_query_answers json_text kw dl E tcols x db q
   <-> (exists rs, q = Ok rs /\ returns E D x (q_limit x) cols rs) \/ (q = Err (DbError 1) /\ forall rs, ~ returns E D x (q_limit x) cols rs)).
Proof.
  intros KP [Qt Qf Qc Qs Qo] NL FT. pose proof DP as [Hc Hg ST IE US NO MI EX]. destruct ST as [KW EXC EO CS SO].
  assert (EC : map fst tcols = cols) by now rewrite map_map.
  assert (Q : query_names_ok dl x cols).
  { split; [rewrite Qt; exact (nm_table _ _ _ NO)|]. split; [intros Hn; pose proof (pk_in resolve s g Hc Hg) as Hp; rewrite Hn in Hp; contradiction|].
    split; [exact (nm_cols _ _ _ NO)|]. split; [apply Forall_forall; intros o Ho; exact (proj1 (Qs o Ho))|].
    destruct (q_filter x) as [e|]; [|exact I]. destruct (Qf e eq_refl) as (B1 & B2 & _). auto. }
  destruct (load_correct json_text E veq CS kw dl conv strict d D db t x (q_limit x) cols (map snd tcols) EO KW (us_wf _ US) KP) as (t0 & sel & Es & Ep & M1 & M2);
    [rewrite Qt; exact (mi_table _ _ _ _ _ _ _ MI)|exact (kinds_known json_text resolve sem s g kw dl conv veq read strict E d t DP)|exact Q|exact NL|exact Qo|rewrite Qt; exact Qc|exact FT|].
  assert (El : load_sql Sqlite kw cols x = Ok (t0, query_values x)) by exact Es.
  unfold sqlite_query_answers. rewrite EC, El, Ep.
  destruct (collect_writes (query_values x)) as (ls & ->).
  { unfold query_values. destruct (q_filter x) as [e|]; [|constructor]. exact (proj2 (proj2 (Qf e eq_refl))). }
  split.
  - intros [(out & S1 & ->)|[-> N]].
    + destruct (M1 out S1) as (rs & -> & R). left. eauto.
    + right. split; [reflexivity|]. intros rs R. destruct (M2 rs R) as (out & S1 & _). exact (N out S1).
  - intros [(rs & -> & R)|[-> N]].
    + left. destruct (M2 rs R) as (out & S1 & <-). eauto.
    + right. split; [reflexivity|]. intros out S1. destruct (M1 out S1) as (rs & _ & R). exact (N rs R).
Qed.

Lemma filter_map_fst {A B} (f : A -> bool) (l : list (A * B)) : filter f (map fst l) = map fst (filter (fun p => f (fst p)) l).
Proof. induction l as [|p l IH]; [reflexivity|]. cbn. rewrite IH. destruct (f (fst p)); reflexivity. Qed.
Lemma take_map {A B} (f : A -> B) n l : StmtSpec.take n (map f l) = map f (StmtSpec.take n l).
Proof. destruct n; cbn; [apply firstn_map|reflexivity]. Qed.
Lemma drop_map {A B} (f : A -> B) n l : StmtSpec.drop n (map f l) = map f (StmtSpec.drop n l).
Proof. destruct n; cbn; [apply skipn_map|reflexivity]. Qed.
Lemma sorted_map {A B} (f : A -> B) (R : B -> B -> Prop) l : StronglySorted R (map f l) <-> StronglySorted (fun a b => R (f a) (f b)) l.
Proof.
  induction l as [|a l IH]; [split; constructor|]. cbn. split; intros H; inversion H; subst; constructor; try (now apply IH).
  - now apply Forall_map.
  - now apply Forall_map.
Qed.

(** What is returned are the chosen rows. *)
Lemma returns_are D (stored : list (Sql.row * object)) x lim rs : table_of resolve sem s g D stored -> q_table x = do_table g ->
  returns E D x lim cols rs -> exists chosen,
    Permutation (filter (fun p => row_matches E D (do_table g) (q_filter x) (fst p)) stored) chosen
    /\ StronglySorted (fun p q => row_le E (q_sort x) (fst p) (fst q)) chosen
    /\ all_some (map (columns_of cols) (map fst (StmtSpec.take lim (StmtSpec.drop (q_offset x) chosen)))) = Some rs.
Proof.
  intros [T1 T2] Qt (sorted & P & S & A). rewrite Qt in P. rewrite <- T1, filter_map_fst in P. apply Permutation_sym, Permutation_map_inv in P as (chosen & -> & P).
  exists chosen. split; [exact P|]. split; [now apply sorted_map|]. rewrite drop_map, take_map in A. exact A.
Qed.
Lemma take_incl {A} n (l : list A) : incl (StmtSpec.take n l) l.
Proof. destruct n; cbn; [|apply incl_refl]. intros x Hx. rewrite <- (firstn_skipn (Z.to_nat z) l). apply in_or_app. now left. Qed.
Lemma drop_incl {A} n (l : list A) : incl (StmtSpec.drop n l) l.
Proof. destruct n; cbn; [|apply incl_refl]. intros x Hx. rewrite <- (firstn_skipn (Z.to_nat z) l). apply in_or_app. now right. Qed.
Lemma objects_read (chosen : list (Sql.row * object)) rs : Forall (fun p => is_row_of resolve sem s g (snd p) (fst p)) chosen ->
  all_some (map (columns_of cols) (map fst chosen)) = Some rs ->
  exists l, omapm (object_of_row (X := X) sem g) rs = Ok l /\ all_equal resolve s (map snd chosen) l.
Proof.
  intros F A. rewrite map_map in A. apply all_some_forall2 in A. pose proof DP as [Hc Hg _ _ _ _ _ _].
  induction A as [|[r o] vs chosen rs Hv _ IH]; [exists []; split; [reflexivity|constructor]|].
  inversion F as [|? ? (H1 & H2 & k & H3 & H4) F']; subst. cbn [fst snd] in *.
  destruct (IH F') as (l & L1 & L2). destruct (ObjProofs.read_back resolve sem s g Hc Hg o r vs k H3 H2 H1 H4 Hv) as (o2 & O1 & O2).
  exists (o2 :: l). cbn [omapm]. rewrite O1. cbn [obind]. rewrite L1. split; [reflexivity|]. constructor; assumption.
Qed.
Lemma chosen_rows D (stored chosen : list (Sql.row * object)) f lim off : table_of resolve sem s g D stored -> Permutation (filter f stored) chosen ->
  Forall (fun p => is_row_of resolve sem s g (snd p) (fst p)) (StmtSpec.take lim (StmtSpec.drop off chosen)).
Proof.
  intros [_ T] P. rewrite Forall_forall in *. intros p Hp. apply take_incl, drop_incl, (Permutation_in p (Permutation_sym P)) in Hp. apply filter_In in Hp as [Hp _]. now apply T.
Qed.
Lemma returns_exist D db x lim : keeps D db -> query_fits E dl (do_table g) D x -> exists rs, returns E D x lim cols rs.
Proof.
  intros KP [Qt Qf Qc Qs Qo]. assert (CO : Forall (column_ordered E D (do_table g)) (q_sort x)) by (apply Forall_forall; intros o Ho; exact (proj2 (Qs o Ho))).
  destruct (sort_exists (fun r => In r (D (do_table g))) (row_le E (q_sort x)) (row_le_total E D _ _ CO) (row_le_trans E D _ _ CO)
    (filter (row_matches E D (q_table x) (q_filter x)) (D (do_table g)))) as (sorted & P & S).
  { apply Forall_forall. intros r Hr. now apply filter_In in Hr. }
  pose proof (rows_table json_text resolve sem s g kw dl conv veq read strict E d t DP D db KP) as T.
  assert (A : exists rs, all_some (map (columns_of cols) (StmtSpec.take lim (StmtSpec.drop (q_offset x) sorted))) = Some rs).
  { assert (F : Forall (fun r => In r (D (do_table g))) (StmtSpec.take lim (StmtSpec.drop (q_offset x) sorted))).
    { apply Forall_forall. intros r Hr. apply take_incl, drop_incl, (Permutation_in r (Permutation_sym P)) in Hr. now apply filter_In in Hr. }
    induction F as [|r l Hr _ (rs & IH)]; [now exists []|]. unfold model_table in T. rewrite Forall_forall in T. destruct (T r Hr) as [[_ N2] _].
    destruct (columns_of_some _ _ N2) as (vs & Hv). exists (vs :: rs). cbn [map all_some]. now rewrite Hv, IH. }
  destruct A as (rs & A). exists rs, sorted. rewrite <- Qt in *. auto.
Qed.
End Load.

(** * Fewer rows *)
Lemma filter_pair {A} (f : A -> bool) l : forall i j r s, i < j -> nth_error (filter f l) i = Some r -> nth_error (filter f l) j = Some s ->
  exists i' j', i' < j' /\ nth_error l i' = Some r /\ nth_error l j' = Some s.
Proof.
  induction l as [|a l IH]; intros i j r s L Hi Hj; [destruct i; discriminate Hi|]. cbn [filter] in Hi, Hj. destruct (f a).
  - destruct j as [|j]; [inversion L|]. cbn in Hj. destruct i as [|i].
    + cbn in Hi. injection Hi as <-. apply nth_error_In in Hj. apply filter_In in Hj as [Hj _]. apply In_nth_error in Hj as (j' & Hj). exists 0, (S j'). split; [lia|]. auto.
    + cbn in Hi. destruct (IH i j r s) as (i' & j' & L' & A1 & A2); [lia|assumption|assumption|]. exists (S i'), (S j'). split; [lia|]. auto.
  - destruct (IH i j r s L Hi Hj) as (i' & j' & L' & A1 & A2). exists (S i'), (S j'). split; [lia|]. auto.
Qed.
Lemma fewer_legal E d n f (D D' : Sql.db) : legal E d D -> D' n = filter f (D n) -> (forall m, m <> n -> D' m = D m) -> references_kept E d n D' -> legal E d D'.
Proof.
  intros [LK LR] Dn Do RK. constructor.
  - intros m t c i j r s x y Ht Hc Hk L Hi Hj Hx Hy. destruct (string_dec m n) as [->|Hm].
    + rewrite Dn in Hi, Hj. destruct (filter_pair _ _ _ _ _ _ L Hi Hj) as (i' & j' & L' & A1 & A2). exact (LK n t c i' j' r s x y Ht Hc Hk L' A1 A2 Hx Hy).
    + rewrite (Do m Hm) in Hi, Hj. exact (LK m t c i j r s x y Ht Hc Hk L Hi Hj Hx Hy).
  - intros m t c k r x Ht Hc Hf Hr Hx. destruct (string_dec (fk_table k) n) as [En|Hn].
    + rewrite En. exact (RK m t c k r x Ht Hc Hf En Hr Hx).
    + rewrite (Do _ Hn). assert (Hr' : In r (D m)).
      { destruct (string_dec m n) as [->|Hm]; [rewrite Dn in Hr; now apply filter_In in Hr as [Hr _]|now rewrite (Do m Hm) in Hr]. }
      exact (LR m t c k r x Ht Hc Hf Hr' Hx).
Qed.
