(** Proofs about creating and copying migrations in memory. *)
From Verif Require Import Base SqlVal Adb AdbSpec AdbProofs ResolveSpec ResolveProofs Chain ChainSpec ChainProofs
  Store StoreSpec.

(** * Settled schemas are fixed points of resolution *)
Lemma acol_eta (c c' : AColumn) :
  c_name c' = c_name c -> c_type c' = c_type c -> c_nullable c' = c_nullable c -> c_pk c' = c_pk c ->
  c_auto c' = c_auto c -> c_unique c' = c_unique c -> c_default c' = c_default c -> c_ref c' = c_ref c -> c' = c.
Proof. destruct c, c'; cbn; congruence. Qed.
Lemma settled_col_resolved d c c' : settled_column c -> col_resolved d c c' -> c' = c.
Proof.
  intros [[i T] R] []. apply acol_eta; auto.
  - unfold type_resolved in cr_type. destruct (c_type c); cbn in T; congruence.
  - unfold ref_resolved in cr_ref. destruct R as [R|[l R]]; rewrite R in *; exact cr_ref.
Qed.
Lemma settled_shape d : settled d -> resolvable_shape d.
Proof.
  intros S. split.
  - intros n t H. exact (proj2 (S n t H)).
  - intros n t c ty H Hc R. destruct (proj1 (S n t H) c Hc) as [_ [E|[l E]]]; congruence.
Qed.
Lemma settled_tables d d' : settled d -> schema_resolved d d' -> a_tables d' = a_tables d.
Proof.
  unfold settled. intros S [F _]. revert S. generalize (a_tables d) (a_tables d') F. clear F.
  assert (G : forall l l', Forall2 (table_resolved d) l l' ->
              (forall n t, In (n, t) l -> settled_table t) -> l' = l); [|intros; eauto].
  induction 1 as [|[n t] [n' t'] l l' (E1 & E2 & Fc) F IH]; intros S; [reflexivity|].
  cbn in *. subst n'. f_equal; [|apply IH; eauto]. f_equal.
  destruct (S n t (or_introl eq_refl)) as [Sc _]. destruct t as [tn tc], t' as [tn' tc']. cbn in *. subst tn'.
  f_equal. clear - Sc Fc. induction Fc as [|c c' l l' E F IH]; [reflexivity|].
  f_equal; [apply (settled_col_resolved d); [apply Sc; cbn; auto|exact E]|]. apply IH. intros; apply Sc; cbn; auto.
Qed.
Lemma settled_verify d : settled d -> verify_types d = Ok tt.
Proof.
  intros S. unfold verify_types, first_deferred.
  destruct (find _ _) as [c|] eqn:E; [|reflexivity].
  apply find_some in E as [Hc K]. apply in_flat_map in Hc as (t & Ht & Hc).
  apply in_map_iff in Ht as ([n u] & <- & Hp). cbn in Hc.
  destruct (proj1 (S n u Hp) c Hc) as [[i T] _]. destruct (c_type c); cbn in *; congruence.
Qed.
Lemma resolve_settled d : msorted (a_tables d) -> msorted (a_types d) -> settled d ->
  exists d', resolve_types d = Ok (d', Ok tt) /\ a_tables d' = a_tables d /\ schema_resolved d d'.
Proof.
  intros St Sx S. pose proof (settled_shape d S) as Sh. apply shape_iff in Sh.
  destruct (resolve_result d St Sx Sh) as (d' & E & R). exists d'.
  pose proof (settled_tables d d' S R) as T. split; [|auto].
  rewrite E. do 2 f_equal. apply settled_verify. unfold settled. rewrite T. exact S.
Qed.
Lemma resolve_settled_id d : msorted (a_tables d) -> a_types d = [] -> settled d ->
  resolve_types d = Ok (d, Ok tt).
Proof.
  intros St Sx S. destruct (resolve_settled d St) as (d' & E & T & R); auto.
  { rewrite Sx. constructor. }
  rewrite E. do 2 f_equal. destruct R as [_ F]. rewrite Sx in F. inversion F as [E1 E2|].
  destruct d, d'; cbn in *; congruence.
Qed.

(** * Adding tables one by one *)
Definition by_name (n : string) (l : list ATable) : option ATable :=
  find (fun t => String.eqb (t_name t) n) l.
Lemma mput_mget_fold l : forall (m : smap string ATable), msorted m -> NoDup (map t_name l) ->
  msorted (fold_left (fun m t => mput (t_name t) t m) l m) /\
  forall n, mget n (fold_left (fun m t => mput (t_name t) t m) l m)
            = match by_name n l with Some t => Some t | None => mget n m end.
Proof.
  induction l as [|t l IH]; intros m S ND; cbn; [auto|].
  inversion ND as [|? ? Hn ND']; subst.
  destruct (IH (mput (t_name t) t m) (mput_sorted _ _ _ S) ND') as [S' G]. split; [exact S'|].
  intros n. rewrite G, mget_mput by exact S.
  unfold by_name. cbn. destruct (String.eqb_spec (t_name t) n) as [<-|N].
  - rewrite keqb_refl. destruct (find _ l) as [u|] eqn:E; [|reflexivity].
    apply find_some in E as [Hu E]. apply String.eqb_eq in E. exfalso. apply Hn.
    rewrite <- E. apply in_map, Hu.
  - destruct (keqb_spec n (t_name t)) as [->|_]; [congruence|]. reflexivity.
Qed.
Lemma by_name_mvals (m : smap string ATable) n : (forall k t, In (k, t) m -> t_name t = k) ->
  by_name n (mvals m) = mget n m.
Proof.
  intros K. unfold by_name. induction m as [|[k t] m IH]; cbn; [reflexivity|].
  rewrite (K k t) by (cbn; auto). destruct (String.eqb_spec k n) as [->|N].
  - now rewrite keqb_refl.
  - destruct (keqb_spec n k) as [->|_]; [congruence|]. apply IH. intros; apply K; cbn; auto.
Qed.
Lemma names_mvals (m : smap string ATable) : (forall k t, In (k, t) m -> t_name t = k) ->
  map t_name (mvals m) = mkeys m.
Proof.
  intros K. induction m as [|[k t] m IH]; cbn; [reflexivity|]. f_equal; [apply K; cbn; auto|].
  apply IH. intros; apply K; cbn; auto.
Qed.
Lemma fold_mput_rebuild (m : smap string ATable) : msorted m -> (forall k t, In (k, t) m -> t_name t = k) ->
  fold_left (fun m t => mput (t_name t) t m) (mvals m) [] = m.
Proof.
  intros S K. assert (ND : NoDup (map t_name (mvals m))).
  { rewrite names_mvals by exact K. apply sorted_NoDup, S. }
  destruct (mput_mget_fold (mvals m) [] msorted_nil ND) as [S' G].
  apply mkeys_ext; [exact S'|exact S|]. intros n. rewrite G, by_name_mvals by exact K. cbn.
  destruct (mget n m); reflexivity.
Qed.

Definition call_table (c : Call) : option ATable :=
  match c with CModified t | CUnmodified t _ => Some t | _ => None end.
Lemma mput_In {K V} `{OrdKey K} (k : K) (v : V) m x w : In (x, w) (mput k v m) -> (x = k /\ w = v) \/ In (x, w) m.
Proof.
  induction m as [|[k' v'] m IH]; simpl.
  - intros [E|[]]. injection E as <- <-. auto.
  - destruct (kcmp k k'); simpl.
    + intros [E|E]; [injection E as <- <-|]; auto.
    + intros [E|E]; [injection E as <- <-|]; auto.
    + intros [E|E]; [auto|]. destruct (IH E); auto.
Qed.
Lemma replace_table_settled d t : settled d -> settled_table t -> settled (replace_table d t).
Proof.
  intros S St n u H. cbn in H.
  assert (X : u = t \/ In (n, u) (a_tables d)).
  { destruct (mput_In _ _ _ _ _ H) as [[_ ->]|X]; auto. }
  destruct X as [->|X]; eauto.
Qed.
Lemma mm_add_table_settled m t : msorted (a_tables (mm_db m)) -> a_types (mm_db m) = [] ->
  settled (mm_db m) -> settled_table t ->
  mm_add_table m t = Ok (mm_with_db m (replace_table (mm_db m) t)).
Proof.
  intros S X D T. unfold mm_add_table.
  rewrite resolve_settled_id; [reflexivity| | |].
  - cbn. apply mput_sorted, S.
  - exact X.
  - apply replace_table_settled; assumption.
Qed.
Definition tables_of (calls : list (outcome Call)) : list ATable :=
  flat_map (fun c => match c with
                     | Ok x => match call_table x with Some t => [t] | None => [] end
                     | _ => [] end) calls.
Lemma mm_calls_tables calls : forall m rest,
  (forall c, In c calls -> exists x t, c = Ok x /\ call_table x = Some t /\ settled_table t) ->
  msorted (a_tables (mm_db m)) -> a_types (mm_db m) = [] -> settled (mm_db m) ->
  mm_calls m (calls ++ rest)
  = mm_calls (mm_with_db m {| a_tables := fold_left (fun s t => mput (t_name t) t s) (tables_of calls)
                                            (a_tables (mm_db m));
                              a_types := [] |}) rest.
Proof.
  induction calls as [|c calls IH]; intros m rest HC S X D.
  - cbn. f_equal. destruct m as [? [ts tys] ? ? ?]; cbn in *. now subst.
  - destruct (HC c (or_introl eq_refl)) as (x & t & -> & Ct & St). cbn [app mm_calls obind].
    assert (E : mm_call m x = mm_add_table m t) by (destruct x; cbn in *; congruence).
    rewrite E, mm_add_table_settled by assumption. cbn [obind].
    assert (Et : tables_of (Ok x :: calls) = t :: tables_of calls).
    { unfold tables_of. cbn [flat_map]. rewrite Ct. reflexivity. }
    rewrite Et, IH.
    + reflexivity.
    + intros c Hc. apply HC. cbn. auto.
    + cbn. apply mput_sorted, S.
    + exact X.
    + apply replace_table_settled; assumption.
Qed.

Lemma mm_calls_sql (mk : Backend -> outcome Call) bs : forall m rest m',
  NoDup (map b_name bs) -> msorted (mm_up m) -> msorted (mm_down m) ->
  (forall b x, In b bs -> mk b = Ok x -> exists u d, x = CSql (b_name b) u d) ->
  mm_calls m (map mk bs ++ rest) = Ok m' ->
  exists m1, mm_calls m1 rest = Ok m' /\ mm_name m1 = mm_name m /\ mm_db m1 = mm_db m /\
    mm_from m1 = mm_from m /\ msorted (mm_up m1) /\ msorted (mm_down m1) /\
    (forall b, In b bs -> exists u d, mk b = Ok (CSql (b_name b) u d) /\
       mget (b_name b) (mm_up m1) = Some u /\ mget (b_name b) (mm_down m1) = Some d) /\
    (forall n, ~ In n (map b_name bs) -> mget n (mm_up m1) = mget n (mm_up m) /\ mget n (mm_down m1) = mget n (mm_down m)).
Proof.
  induction bs as [|b bs IH]; intros m rest m' ND Su Sd HM H; cbn in *.
  - exists m. repeat (split; [auto; fail|]). split; [|auto]. intros b [].
  - destruct (mk b) as [x| |] eqn:Ex; try discriminate. cbn in H.
    destruct (HM b x (or_introl eq_refl) Ex) as (u & d & ->). cbn in H.
    inversion ND as [|? ? Hn ND']; subst.
    destruct (IH (mm_add_sql m (b_name b) u d) rest m' ND') as (m1 & E1 & En & Ed & Ef & S1 & S2 & G & O);
      [cbn; apply mput_sorted, Su|cbn; apply mput_sorted, Sd|intros; eauto|exact H|].
    exists m1. repeat (split; [assumption|]). split.
    + intros b' [<-|Hb']; [|auto]. exists u, d. split; [exact Ex|].
      destruct (O (b_name b) Hn) as [O1 O2]. rewrite O1, O2. cbn.
      rewrite !mget_mput, !keqb_refl by assumption. auto.
    + intros n Hn'. destruct (O n) as [O1 O2]; [tauto|]. rewrite O1, O2. cbn.
      rewrite !mget_mput by assumption.
      assert (keqb n (b_name b) = false) as -> by (apply keqb_neq; intros ->; tauto). auto.
Qed.

(** Without a predecessor every table counts as modified. *)
Lemma diff_op_In old new ops op : diff_out old new = Ok ops -> wf_schema old -> wf_schema new ->
  (In op ops <-> op_justified old new op).
Proof. intros E Wo Wn. rewrite diff_eq in E. injection E as <-. apply diff_In; assumption. Qed.
Lemma empty_wf : wf_schema adb_new.
Proof. split; [constructor|]. intros n t []. Qed.
Lemma modified_first to_db ops t : wf_schema to_db -> diff_out adb_new to_db = Ok ops ->
  In t (mvals (a_tables to_db)) -> kmem (t_name t) (flat_map op_modifies ops) = true.
Proof.
  intros W E Ht. apply kmem_In. apply in_flat_map. exists (AddTable t).
  apply in_map_iff in Ht as ([n u] & <- & Hp). cbn. destruct (proj2 W n u Hp) as [En _].
  split; [|cbn; auto]. apply (diff_op_In adb_new to_db ops _ E empty_wf W).
  cbn. rewrite En. split; [exact Hp|]. intros [t' []].
Qed.

Lemma create_some bs from from_db to_db calls : create_calls bs from from_db to_db = Ok (Some calls) ->
  exists ops, diff_out from_db to_db = Ok ops /\ ops <> [] /\
    calls = map (fun t => if kmem (t_name t) (flat_map op_modifies ops) then Ok (CModified t)
                          else match from with
                               | None => Err (MigrationError "unmodified requires a from")
                               | Some f => Ok (CUnmodified t f)
                               end) (mvals (a_tables to_db))
            ++ map (fun b => do up <- b_sql b from_db (first_ops from ops);
                             do dops <- diff_out to_db from_db;
                             do down <- b_sql b to_db dops;
                             Ok (CSql (b_name b) up down)) bs
            ++ [Ok (CFrom from)].
Proof.
  unfold create_calls. destruct (diff_out from_db to_db) as [ops| |]; cbn; try discriminate.
  destruct ops as [|o ops]; [discriminate|]. intros [= <-].
  exists (o :: ops). split; [reflexivity|]. split; [discriminate|]. destruct from; reflexivity.
Qed.
Lemma create_none bs from from_db to_db : create_calls bs from from_db to_db = Ok None <->
  diff_out from_db to_db = Ok [].
Proof.
  unfold create_calls. destruct (diff_out from_db to_db) as [[|o ops]| |]; cbn; split; congruence.
Qed.

Lemma table_calls_ok from_db to_db ops from : wf_schema from_db -> wf_schema to_db -> settled to_db ->
  diff_out from_db to_db = Ok ops -> (from = None -> from_db = adb_new) ->
  let calls := map (fun t => if kmem (t_name t) (flat_map op_modifies ops) then Ok (CModified t)
                          else match from with
                               | None => Err (MigrationError "unmodified requires a from")
                               | Some f => Ok (CUnmodified t f)
                               end) (mvals (a_tables to_db)) in
  (forall c, In c calls -> exists x t, c = Ok x /\ call_table x = Some t /\ settled_table t) /\
  tables_of calls = mvals (a_tables to_db).
Proof.
  intros Wf Wt St E Hn calls.
  assert (F : forall t, In t (mvals (a_tables to_db)) -> exists x,
    (if kmem (t_name t) (flat_map op_modifies ops) then Ok (CModified t)
     else match from with None => Err (MigrationError "unmodified requires a from")
                        | Some f => Ok (CUnmodified t f) end) = Ok x /\ call_table x = Some t).
  { intros t Ht. destruct (kmem _ _) eqn:Ek; [eexists; split; reflexivity|].
    destruct from as [f|]; [eexists; split; reflexivity|]. rewrite (Hn eq_refl) in E.
    rewrite (modified_first _ _ _ Wt E Ht) in Ek. discriminate. }
  split.
  - intros c Hc. unfold calls in Hc. apply in_map_iff in Hc as (t & <- & Ht).
    destruct (F t Ht) as (x & Ex & Ct). exists x, t. split; [exact Ex|]. split; [exact Ct|].
    apply in_map_iff in Ht as ([n u] & <- & Hp). exact (St n u Hp).
  - unfold calls, tables_of. clear calls St. induction (mvals (a_tables to_db)) as [|t l IH]; cbn; [reflexivity|].
    destruct (F t (or_introl eq_refl)) as (x & Ex & Ct). rewrite Ex, Ct. cbn. f_equal. apply IH.
    intros u Hu. apply F. cbn. auto.
Qed.

Lemma settled_read m : msorted (a_tables (mm_db m)) -> a_types (mm_db m) = [] -> settled (mm_db m) ->
  mm_read_db m = Ok (mm_db m).
Proof. intros S X D. unfold mm_read_db. rewrite resolve_settled_id by assumption. reflexivity. Qed.

(** What one successful creation produces. *)
Lemma mem_created s bs name from to_db s' from_db :
  from_db_of from from_db -> wf_schema from_db -> wf_schema to_db -> settled to_db -> NoDup (map b_name bs) ->
  mem_create_to s bs name from to_db = Ok (true, s') ->
  ~ same_schema from_db to_db /\
  exists m, s' = mem_add s m /\ mm_name m = name /\ mm_from m = option_map mm_name from /\
    mm_read_db m = Ok {| a_tables := a_tables to_db; a_types := [] |} /\
    (forall b, In b bs -> exists up down,
       scripts_of bs (option_map mm_name from) from_db to_db b up down /\
       mget (b_name b) (mm_up m) = Some up /\ mget (b_name b) (mm_down m) = Some down) /\
    (forall n, ~ In n (map b_name bs) -> mget n (mm_up m) = None /\ mget n (mm_down m) = None).
Proof.
  intros Hf Wf Wt St NDb. unfold mem_create_to.
  assert (Ef : match from with None => Ok adb_new | Some m => mm_read_db m end = Ok from_db).
  { unfold from_db_of in Hf. destruct from; congruence. }
  rewrite Ef. cbn [obind].
  destruct (create_calls bs (option_map mm_name from) from_db to_db) as [[calls|]| |] eqn:Ec;
    cbn [obind]; try discriminate.
  destruct (mm_calls (mem_migration name) calls) as [m| |] eqn:Em; cbn; try discriminate.
  intros [= <-]. apply create_some in Ec as (ops & Ed & Ne & ->).
  split.
  { intros SS. apply diff_empty_iff in SS; [|assumption..]. rewrite diff_eq in Ed. injection Ed as <-. contradiction. }
  assert (Hn : option_map mm_name from = None -> from_db = adb_new).
  { destruct from; [discriminate|]. intros _. exact Hf. }
  destruct (table_calls_ok _ _ _ _ Wf Wt St Ed Hn) as [C1 C2]. cbv zeta in C1, C2.
  rewrite mm_calls_tables in Em; [|exact C1|constructor|reflexivity|intros n t []].
  rewrite C2 in Em. cbn [mem_migration mm_db adb_new a_tables] in Em.
  rewrite fold_mput_rebuild in Em.
  2: { exact (proj1 Wt). }
  2: { intros k t Hk. exact (proj1 (proj2 Wt k t Hk)). }
  apply mm_calls_sql in Em as (m1 & E1 & En & Edb & Ef1 & S1 & S2 & G & O);
    [|exact NDb|constructor|constructor|].
  2: { intros b x Hb. destruct (b_sql b from_db _) as [u| |]; cbn; try discriminate.
       destruct (diff_out to_db from_db) as [dd| |]; cbn; try discriminate.
       destruct (b_sql b to_db dd) as [w| |]; cbn; try discriminate. intros [= <-]. eauto. }
  cbn in E1. injection E1 as <-. cbn in En, Edb. exists (mm_set_from m1 (option_map mm_name from)).
  split; [reflexivity|]. split; [exact En|]. split; [reflexivity|]. split.
  { rewrite settled_read; cbn; rewrite Edb; cbn.
    - reflexivity.
    - exact (proj1 Wt).
    - reflexivity.
    - exact St. }
  split.
  - intros b Hb. destruct (G b Hb) as (u & d & Eb & Gu & Gd). exists u, d. split; [|auto].
    split; [exact Hb|]. destruct (b_sql b from_db (first_ops (option_map mm_name from) ops)) as [u'| |] eqn:Eu; cbn in Eb; try discriminate.
    destruct (diff_out to_db from_db) as [dops| |] eqn:Edd; cbn in Eb; try discriminate.
    destruct (b_sql b to_db dops) as [w| |] eqn:Ew; cbn in Eb; try discriminate.
    injection Eb as -> ->. exists ops, dops. auto.
  - intros n Hnn. cbn [mm_up mm_down mm_set_from]. destruct (O n Hnn) as [-> ->]. auto.
Qed.

Lemma mem_not_created s bs name from to_db s' from_db :
  from_db_of from from_db -> wf_schema from_db -> wf_schema to_db ->
  mem_create_to s bs name from to_db = Ok (false, s') -> s' = s /\ same_schema from_db to_db.
Proof.
  intros Hf Wf Wt. unfold mem_create_to.
  assert (Ef : match from with None => Ok adb_new | Some m => mm_read_db m end = Ok from_db).
  { unfold from_db_of in Hf. destruct from; congruence. }
  rewrite Ef. cbn [obind].
  destruct (create_calls bs (option_map mm_name from) from_db to_db) as [[calls|]| |] eqn:Ec;
    cbn [obind]; try discriminate.
  - destruct (mm_calls (mem_migration name) calls); discriminate.
  - intros [= <-]. split; [reflexivity|]. apply create_none in Ec. rewrite diff_eq in Ec.
    injection Ec as Ec. apply diff_empty_iff in Ec; assumption.
Qed.

(** Creation succeeds whenever the backends can produce the scripts. *)
Lemma mm_calls_sql_ok (mk : Backend -> outcome Call) bs : forall m rest,
  (forall b, In b bs -> exists u d, mk b = Ok (CSql (b_name b) u d)) ->
  (forall m1, exists m', mm_calls m1 rest = Ok m') ->
  exists m', mm_calls m (map mk bs ++ rest) = Ok m'.
Proof.
  induction bs as [|b bs IH]; intros m rest H HR; cbn; [auto|].
  destruct (H b (or_introl eq_refl)) as (u & d & ->). cbn. apply IH; [intros; apply H; cbn; auto|exact HR].
Qed.
Lemma mem_create_succeeds s bs name from to_db from_db :
  from_db_of from from_db -> wf_schema from_db -> wf_schema to_db -> settled to_db ->
  (forall b d ops, In b bs -> exists sql, b_sql b d ops = Ok sql) ->
  exists r s', mem_create_to s bs name from to_db = Ok (r, s').
Proof.
  intros Hf Wf Wt St HB. unfold mem_create_to.
  assert (Ef : match from with None => Ok adb_new | Some m => mm_read_db m end = Ok from_db).
  { unfold from_db_of in Hf. destruct from; congruence. }
  rewrite Ef. cbn [obind].
  destruct (create_calls bs (option_map mm_name from) from_db to_db) as [[calls|]| |] eqn:Ec; cbn [obind].
  - apply create_some in Ec as (ops & Ed & Ne & ->).
    assert (Hn : option_map mm_name from = None -> from_db = adb_new).
    { destruct from; [discriminate|]. intros _. exact Hf. }
    destruct (table_calls_ok _ _ _ _ Wf Wt St Ed Hn) as [C1 C2]. cbv zeta in C1, C2.
    rewrite mm_calls_tables; [|exact C1|constructor|reflexivity|intros n t []].
    edestruct mm_calls_sql_ok as [m' Em']; [| |rewrite Em'].
    + intros b Hb. destruct (HB b from_db (first_ops (option_map mm_name from) ops) Hb) as [u ->]. cbn.
      rewrite diff_eq. cbn. destruct (HB b to_db (d_all to_db from_db) Hb) as [w ->]. cbn. eauto.
    + intros m1. cbn. eauto.
    + cbn. eauto.
  - eauto.
  - exfalso. unfold create_calls in Ec. rewrite diff_eq in Ec. cbn in Ec.
    destruct (d_all from_db to_db); discriminate.
  - exfalso. unfold create_calls in Ec. rewrite diff_eq in Ec. cbn in Ec.
    destruct (d_all from_db to_db); discriminate.
Qed.

(** * The chain of the in-memory store *)
Lemma mem_latest_get s n m : mem_wf s -> mem_get s n = Some m -> mm_name m = n.
Proof. intros (_ & K & _) H. apply K. apply mget_In. exact H. Qed.
Lemma mem_coherent s : mem_wf s -> coherent (mem_coll s).
Proof.
  intros W. split; [|split]; cbn.
  - intros n m H. exact (mem_latest_get s n m W H).
  - intros m H. unfold mem_latest in H. destruct (ms_latest s) as [n|]; [|discriminate].
    now rewrite (mem_latest_get s n m W H).
  - exists (mkeys (ms_migs s)). split; [unfold mkeys; now rewrite map_length|].
    intros n m H. apply mget_keys. eauto.
Qed.
Lemma mem_add_get s m n : mem_wf s -> mem_get (mem_add s m) n = if String.eqb n (mm_name m) then Some m else mem_get s n.
Proof.
  intros (S & _ & _). unfold mem_get, mem_add. cbn. rewrite mget_mput by exact S.
  unfold keqb. cbn. destruct (String.eqb_spec n (mm_name m)) as [->|N].
  - now rewrite (proj2 (str_cmp_eq _ _) eq_refl).
  - destruct (String.compare n (mm_name m)) eqn:E; try reflexivity. apply str_cmp_eq in E. contradiction.
Qed.
Lemma mem_add_wf s m : mem_wf s -> mem_wf (mem_add s m).
Proof.
  intros W. pose proof W as (S & K & L). split; [|split].
  - cbn. apply mput_sorted, S.
  - intros n x H. apply In_mget in H; [|cbn; apply mput_sorted, S].
    change (mem_get (mem_add s m) n = Some x) in H. rewrite mem_add_get in H by exact W.
    destruct (String.eqb_spec n (mm_name m)) as [->|N]; [injection H as <-; reflexivity|].
    exact (mem_latest_get s n x W H).
  - intros n H.
    assert (X : n = mm_name m \/ ms_latest s = Some n).
    { cbn in H. destruct (match ms_latest s with None => true | Some _ => _ end); [left; congruence|auto]. }
    assert (G : exists x, mem_get (mem_add s m) n = Some x).
    { rewrite mem_add_get by exact W. destruct (String.eqb_spec n (mm_name m)) as [->|N]; [eauto|].
      destruct X as [->|X]; [congruence|]. destruct (L n X) as [x Hx]. exists x. apply In_mget; assumption. }
    destruct G as [x G]. exists x. apply mget_In. exact G.
Qed.
Lemma mem_latest_none s : mem_wf s -> mem_latest s = None -> ms_latest s = None.
Proof.
  intros (S & _ & L) H. unfold mem_latest in H. destruct (ms_latest s) as [n|] eqn:E; [|reflexivity].
  destruct (L n eq_refl) as [m Hm]. apply In_mget in Hm; [|exact S]. unfold mem_get in H. congruence.
Qed.
Lemma mem_latest_name s m : mem_wf s -> mem_latest s = Some m -> ms_latest s = Some (mm_name m).
Proof.
  intros W H. unfold mem_latest in H. destruct (ms_latest s) as [n|]; [|discriminate].
  now rewrite (mem_latest_get s n m W H).
Qed.
Lemma mem_add_latest s m : mem_wf s -> mm_from m = option_map mm_name (mem_latest s) ->
  mem_latest (mem_add s m) = Some m.
Proof.
  intros W F. unfold mem_latest at 1.
  assert (E : ms_latest (mem_add s m) = Some (mm_name m)).
  { cbn. destruct (mem_latest s) as [l|] eqn:El; cbn in F; rewrite F.
    - rewrite (mem_latest_name s l W El). now rewrite String.eqb_refl.
    - now rewrite (mem_latest_none s W El). }
  rewrite E, mem_add_get by exact W. now rewrite String.eqb_refl.
Qed.
(** Adding a fresh name keeps every chain. *)
Lemma chain_to_frame s m x l : mem_wf s -> mem_get s (mm_name m) = None ->
  chain_to (mem_coll s) x l -> chain_to (mem_coll (mem_add s m)) x l.
Proof.
  intros W Fr. induction 1 as [x F|x p l (n & E & G) C IH].
  - constructor. exact F.
  - econstructor; [|exact IH]. exists n. split; [exact E|]. cbn [cl_get mem_coll] in G |- *. rewrite mem_add_get by exact W.
    destruct (String.eqb_spec n (mm_name m)) as [->|N]; [congruence|exact G].
Qed.
Lemma mem_add_chain s m l : mem_wf s -> mem_get s (mm_name m) = None ->
  mm_from m = option_map mm_name (mem_latest s) ->
  chain (mem_coll s) l -> chain (mem_coll (mem_add s m)) (l ++ [m]).
Proof.
  intros W Fr F C. unfold chain in *. cbn [cl_latest mem_coll] in *.
  rewrite (mem_add_latest s m W F). destruct (mem_latest s) as [p|] eqn:El; cbn in F.
  - econstructor; [|eapply chain_to_frame; eauto].
    exists (mm_name p). cbn [cl_get cl_from mem_coll]. rewrite F. split; [reflexivity|]. rewrite mem_add_get by exact W.
    destruct (String.eqb_spec (mm_name p) (mm_name m)) as [E|N].
    + exfalso. unfold mem_latest in El. destruct (ms_latest s) as [n|]; [|discriminate].
      pose proof (mem_latest_get s n p W El). congruence.
    + unfold mem_latest in El. destruct (ms_latest s) as [n|]; [|discriminate].
      now rewrite (mem_latest_get s n p W El).
  - subst l. cbn. constructor. unfold is_first. cbn. now rewrite F.
Qed.

(** * Histories *)
Lemma mem_history bs steps : NoDup (map b_name bs) -> forall s s' l d,
  mem_wf s -> chain (mem_coll s) l -> schema_of_latest s d -> wf_schema d ->
  NoDup (map fst steps) -> (forall n, In n (map fst steps) -> mem_get s n = None) ->
  (forall n to, In (n, to) steps -> wf_schema to /\ settled to) ->
  mem_create_all bs s steps = Ok s' ->
  exists ms, history d steps ms /\ chain (mem_coll s') (l ++ ms) /\ mem_wf s' /\
    forall n, ~ In n (map fst steps) -> mem_get s' n = mem_get s n.
Proof.
  intros NDb. induction steps as [|[n to] steps IH]; intros s s' l d W C SL Wd ND Fr WT H; cbn in H.
  - injection H as <-. exists []. rewrite app_nil_r. repeat split; auto; try apply W. constructor.
  - destruct (mem_create_to s bs n (mem_latest s) to) as [[b s1]| |] eqn:E; cbn in H; try discriminate.
    destruct (WT n to (or_introl eq_refl)) as [Wt St]. cbn in ND. inversion ND as [|? ? Hn ND']; subst.
    destruct b.
    + apply (mem_created s bs n (mem_latest s) to s1 d SL Wd Wt St NDb) in E
        as (NS & m & -> & En & Ef & Rd & _ & _).
      assert (Fm : mem_get s (mm_name m) = None) by (rewrite En; apply Fr; cbn; auto).
      eapply (IH _ _ (l ++ [m]) {| a_tables := a_tables to; a_types := [] |}) in H as (ms & Hh & Hc & Hw & Hg).
      * exists (m :: ms). split; [|split; [|split; [exact Hw|]]].
        -- apply hi_make; [exact NS|exact En|exact Rd|exact Hh].
        -- rewrite <- app_assoc in Hc. exact Hc.
        -- intros k Hk. cbn in Hk. rewrite Hg by tauto. rewrite mem_add_get by exact W.
           destruct (String.eqb_spec k (mm_name m)) as [->|N]; [exfalso; apply Hk; left; congruence|reflexivity].
      * apply mem_add_wf, W.
      * apply mem_add_chain; assumption.
      * unfold schema_of_latest. rewrite mem_add_latest by assumption. exact Rd.
      * split; [exact (proj1 Wt)|]. exact (proj2 Wt).
      * exact ND'.
      * intros k Hk. rewrite mem_add_get by exact W. destruct (String.eqb_spec k (mm_name m)) as [->|N].
        -- exfalso. apply Hn. rewrite <- En. exact Hk.
        -- apply Fr. cbn. auto.
      * intros k t Hk. apply (WT k t). cbn. auto.
    + apply (mem_not_created s bs n (mem_latest s) to s1 d SL Wd Wt) in E as (-> & SS). cbn [snd] in H.
      eapply IH in H as (ms & Hh & Hc & Hw & Hg); eauto.
      * exists ms. split; [constructor; assumption|]. split; [exact Hc|]. split; [exact Hw|].
        intros k Hk. apply Hg. cbn in Hk. tauto.
      * intros k Hk. apply Fr. cbn. auto.
      * intros k t Hk. apply (WT k t). cbn. auto.
Qed.

(** * Copying *)
Lemma derives_mono d1 d2 : a_tables d1 = a_tables d2 -> (forall p, In p (a_types d1) -> In p (a_types d2)) ->
  forall k i, derives d1 k i -> derives d2 k i.
Proof.
  intros ET EX. induction 1.
  - now apply der_json.
  - rewrite ET in *. eapply der_pk_known; eauto.
  - rewrite ET in *. eapply der_pk_key; eauto.
  - eapply der_type_known; eauto.
  - eapply der_type_key; eauto.
Qed.
Lemma result_types_stuck d : resolution_result d -> settled d ->
  msorted (a_tables d) /\ msorted (a_types d) /\
  forall k k', In (k, Deferred k') (a_types d) -> forall i, ~ derives d k' i.
Proof.
  intros (d0 & S1 & S2 & E) St. pose proof (resolve_frame d0 d (Ok tt) S1 S2 E) as R.
  destruct (schema_resolved_sorted d0 d R S1 S2) as [T1 T2]. split; [exact T1|]. split; [exact T2|].
  destruct (resolve_settled d T1 T2 St) as (d2 & E2 & _ & R2).
  destruct (resolve_idempotent d0 d d2 (Ok tt) (Ok tt) S1 S2 E E2) as [_ X].
  intros k k' Hin i Hd. destruct R2 as [_ F2]. rewrite X in F2.
  assert (G : forall l l', Forall2 (fun p p' : TypeKey * DeferredSqlType =>
                                      fst p' = fst p /\ type_resolved d (snd p) (snd p')) l l' ->
              l' = l -> forall p, In p l -> type_resolved d (snd p) (snd p)).
  { clear. induction 1 as [|a b l l' [E1 E2] F IH]; intros E p Hp; [destruct Hp|].
    injection E as -> ->. destruct Hp as [<-|Hp]; auto. }
  pose proof (G _ _ F2 eq_refl _ Hin) as T. cbn in T. destruct T as [(j & T & _)|[_ T]]; [discriminate|].
  exact (T i Hd).
Qed.
Lemma forall2_id (P : TypeKey * DeferredSqlType -> TypeKey * DeferredSqlType -> Prop) l l' :
  Forall2 P l l' -> (forall p q, In p l -> P p q -> q = p) -> l' = l.
Proof.
  induction 1 as [|a b l l' H F IH]; intros G; [reflexivity|].
  f_equal; [apply G; cbn; auto|]. apply IH. intros; apply G; cbn; auto.
Qed.
Lemma copy_types_step d m k t : resolution_result d -> settled d ->
  a_tables (mm_db m) = a_tables d -> msorted (a_types (mm_db m)) ->
  (forall p, In p (a_types (mm_db m)) -> In p (a_types d)) -> In (k, t) (a_types d) ->
  mm_add_type m k t = Ok (mm_with_db m (add_type (mm_db m) k t)).
Proof.
  intros R St ET SX Sub Hin. destruct (result_types_stuck d R St) as (S1 & S2 & Stuck).
  unfold mm_add_type. set (e := add_type (mm_db m) k t).
  assert (Ee : a_tables e = a_tables d) by exact ET.
  assert (Xe : msorted (a_types e)) by (cbn; apply mput_sorted, SX).
  assert (Sube : forall p, In p (a_types e) -> In p (a_types d)).
  { intros [k1 t1] Hp. apply In_mget in Hp; [|exact Xe]. cbn in Hp. rewrite mget_mput in Hp by exact SX.
    destruct (keqb_spec k1 k) as [->|N]; [injection Hp as <-; exact Hin|]. apply Sub, mget_In, Hp. }
  destruct (resolve_settled e) as (e' & E & T & F).
  { rewrite Ee. exact S1. }
  { exact Xe. }
  { intros n u Hu. rewrite Ee in Hu. exact (St n u Hu). }
  rewrite E. cbn. do 2 f_equal. assert (a_types e' = a_types e).
  { destruct F as [_ F]. eapply forall2_id; [exact F|]. intros [k1 t1] [k2 t2] Hp [E1 T1]. cbn in *. subst k2.
    f_equal. unfold type_resolved in T1. destruct t1 as [x|x|x]; [exact T1|exact T1|].
    destruct T1 as [(i & -> & Hd)|[-> _]]; [|reflexivity]. exfalso.
    apply (Stuck k1 x (Sube _ Hp) i). exact (derives_mono e d Ee Sube x i Hd). }
  destruct e', e; cbn in *; congruence.
Qed.
Lemma copy_types d l : resolution_result d -> settled d -> forall m,
  a_tables (mm_db m) = a_tables d -> msorted (a_types (mm_db m)) ->
  (forall p, In p (a_types (mm_db m)) -> In p (a_types d)) -> (forall p, In p l -> In p (a_types d)) ->
  exists m', ofold (fun m p => mm_add_type m (fst p) (snd p)) l m = Ok m' /\
    m' = mm_with_db m {| a_tables := a_tables d; a_types := fold_left (fun x p => mput (fst p) (snd p) x) l (a_types (mm_db m)) |}.
Proof.
  intros R St. induction l as [|[k t] l IH]; intros m ET SX Sub SubL; cbn.
  - eexists. split; [reflexivity|]. destruct m as [? [a b] ? ? ?]. cbn in *. now subst.
  - rewrite (copy_types_step d m k t) by (auto; apply SubL; cbn; auto). cbn [obind].
    destruct (IH (mm_with_db m (add_type (mm_db m) k t))) as (m' & E & ->).
    + exact ET.
    + cbn. apply mput_sorted, SX.
    + intros [k1 t1] Hp. apply In_mget in Hp; [|cbn; apply mput_sorted, SX]. cbn in Hp.
      rewrite mget_mput in Hp by exact SX. destruct (keqb_spec k1 k) as [->|N].
      * injection Hp as <-. apply SubL. cbn. auto.
      * apply Sub, mget_In, Hp.
    + intros p Hp. apply SubL. cbn. auto.
    + eexists. split; [exact E|]. reflexivity.
Qed.
Lemma fold_mput_types (l : smap TypeKey DeferredSqlType) : msorted l ->
  fold_left (fun x p => mput (fst p) (snd p) x) l [] = l.
Proof.
  intros S.
  assert (G : forall l x, NoDup (mkeys l) -> msorted x ->
    msorted (fold_left (fun x (p : TypeKey * DeferredSqlType) => mput (fst p) (snd p) x) l x) /\
    forall k, mget k (fold_left (fun x p => mput (fst p) (snd p) x) l x)
              = match mget k l with Some v => Some v | None => mget k x end).
  { clear. induction l as [|[k v] l IH]; intros x ND Sx; cbn; [auto|].
    unfold mkeys in ND; cbn in ND. inversion ND as [|? ? Hn ND']; subst.
    destruct (IH (mput k v x) ND' (mput_sorted _ _ _ Sx)) as [S' G]. split; [exact S'|].
    intros j. rewrite G, mget_mput by exact Sx. destruct (keqb_spec j k) as [->|N]; [|reflexivity].
    now rewrite (proj2 (mget_None k l) Hn). }
  destruct (G l [] (sorted_NoDup _ S) msorted_nil) as [S' G'].
  apply mkeys_ext; [exact S'|exact S|]. intros k. rewrite G'. cbn. destruct (mget k l); reflexivity.
Qed.
Lemma copy_tables l : forall m, msorted (a_tables (mm_db m)) -> a_types (mm_db m) = [] -> settled (mm_db m) ->
  (forall t, In t l -> settled_table t) ->
  ofold mm_add_table l m
  = Ok (mm_with_db m {| a_tables := fold_left (fun s t => mput (t_name t) t s) l (a_tables (mm_db m)); a_types := [] |}).
Proof.
  induction l as [|t l IH]; intros m S X D HL; cbn.
  - f_equal. destruct m as [? [ts tys] ? ? ?]; cbn in *. now subst.
  - rewrite mm_add_table_settled by (auto; apply HL; cbn; auto). cbn. rewrite IH.
    + reflexivity.
    + cbn. apply mput_sorted, S.
    + exact X.
    + apply replace_table_settled; [exact D|]. apply HL; cbn; auto.
    + intros u Hu. apply HL. cbn. auto.
Qed.
Lemma copy_sqls src bs : NoDup bs -> forall m,
  msorted (mm_up m) -> msorted (mm_down m) ->
  (forall b, In b bs -> exists u d, mv_up src b = Ok u /\ mv_down src b = Ok d) ->
  exists m', ofold (fun m b => do u <- mv_up src b; do d <- mv_down src b;
                    match u, d with
                    | Some u, Some d => Ok (mm_add_sql m b u d)
                    | _, _ => Ok m
                    end) bs m = Ok m' /\
    mm_name m' = mm_name m /\ mm_db m' = mm_db m /\ mm_from m' = mm_from m /\
    (forall b, ~ In b bs -> mget b (mm_up m') = mget b (mm_up m) /\ mget b (mm_down m') = mget b (mm_down m)) /\
    (forall b u d, In b bs -> mv_up src b = Ok (Some u) -> mv_down src b = Ok (Some d) ->
       mget b (mm_up m') = Some u /\ mget b (mm_down m') = Some d).
Proof.
  induction 1 as [|b bs Hb ND IH]; intros m Su Sd HS; cbn [ofold].
  - exists m. repeat split; auto; destruct H.
  - destruct (HS b (or_introl eq_refl)) as (u & d & Eu & Ed). rewrite Eu, Ed. cbn [obind].
    assert (G : forall b', In b' bs -> exists u d, mv_up src b' = Ok u /\ mv_down src b' = Ok d)
      by (intros; apply HS; cbn; auto).
    destruct u as [u|], d as [d|]; cbn [obind].
    + destruct (IH (mm_add_sql m b u d)) as (m' & E & A & B & C & O & I).
      { cbn. apply mput_sorted, Su. } { cbn. apply mput_sorted, Sd. } { exact G. }
      exists m'. rewrite E. cbn in A, B, C. repeat (split; [auto; fail|]). split.
      * intros b' Hb'. cbn in Hb'. destruct (O b') as [-> ->]; [tauto|]. cbn [mm_up mm_down mm_add_sql]. rewrite !mget_mput by assumption.
        assert (keqb b' b = false) as -> by (apply keqb_neq; intros ->; tauto). auto.
      * intros b' u' d' [<-|Hb'] Eu' Ed'; [|eauto]. destruct (O b Hb) as [-> ->]. cbn [mm_up mm_down mm_add_sql].
        rewrite !mget_mput, keqb_refl by assumption. split; congruence.
    + destruct (IH m Su Sd G) as (m' & E & A & B & C & O & I). exists m'. rewrite E.
      repeat (split; [auto; fail|]). split; [intros b' Hb'; cbn in Hb'; apply O; tauto|].
      intros b' u' d' [<-|Hb'] Eu' Ed'; [congruence|eauto].
    + destruct (IH m Su Sd G) as (m' & E & A & B & C & O & I). exists m'. rewrite E.
      repeat (split; [auto; fail|]). split; [intros b' Hb'; cbn in Hb'; apply O; tauto|].
      intros b' u' d' [<-|Hb'] Eu' Ed'; [congruence|eauto].
    + destruct (IH m Su Sd G) as (m' & E & A & B & C & O & I). exists m'. rewrite E.
      repeat (split; [auto; fail|]). split; [intros b' Hb'; cbn in Hb'; apply O; tauto|].
      intros b' u' d' [<-|Hb'] Eu' Ed'; [congruence|eauto].
Qed.
Lemma copy_preserves src name f d bs :
  mv_from src = Ok f -> mv_db src = Ok d -> mv_backends src = Ok bs -> NoDup bs ->
  (forall b, In b bs -> exists u w, mv_up src b = Ok u /\ mv_down src b = Ok w) ->
  resolution_result d -> settled d -> wf_schema d ->
  exists m, copy_migration src (mem_migration name) = Ok m /\
    mm_name m = name /\ mm_from m = f /\ mm_db m = d /\ mm_read_db m = Ok d /\
    (forall b u w, In b bs -> mv_up src b = Ok (Some u) -> mv_down src b = Ok (Some w) ->
       mget b (mm_up m) = Some u /\ mget b (mm_down m) = Some w) /\
    (forall b, ~ In b bs -> mget b (mm_up m) = None /\ mget b (mm_down m) = None).
Proof.
  intros Ef Ed Eb ND HS R St W. unfold copy_migration. rewrite Ef, Ed, Eb. cbn [obind].
  destruct (result_types_stuck d R St) as (S1 & S2 & Stuck).
  rewrite copy_tables; cbn.
  2: constructor. 2: reflexivity. 2: intros n t [].
  2: { intros t Ht. apply in_map_iff in Ht as ([n u] & <- & Hp). exact (St n u Hp). }
  rewrite fold_mput_rebuild.
  2: exact S1.
  2: { intros k t Hk. exact (proj1 (proj2 W k t Hk)). }
  edestruct (copy_types d (a_types d) R St) as (m2 & E2 & Em2).
  5: rewrite E2; cbn [obind].
  { reflexivity. }
  { constructor. }
  { intros p []. }
  { auto. }
  cbn in Em2. rewrite fold_mput_types in Em2 by exact S2.
  destruct (copy_sqls src bs ND m2) as (m' & E & A & B & C & O & I).
  { rewrite Em2. constructor. } { rewrite Em2. constructor. } { exact HS. }
  exists m'. split; [exact E|]. rewrite A, B, C, Em2. cbn.
  split; [reflexivity|]. split; [reflexivity|]. split; [destruct d; reflexivity|]. split.
  - unfold mm_read_db. rewrite B, Em2. cbn.
    destruct (resolve_settled {| a_tables := a_tables d; a_types := a_types d |} S1 S2 St) as (e & Ee & T & F).
    rewrite Ee. cbn. f_equal. destruct d as [dt dx]. cbn in *. destruct e as [et ex]. cbn in *. subst et.
    f_equal. destruct F as [_ F]. cbn in F. eapply forall2_id; [exact F|].
    intros [k1 t1] [k2 t2] Hp [E1 T1]. cbn in *. subst k2. f_equal. unfold type_resolved in T1.
    destruct t1 as [x|x|x]; [exact T1|exact T1|]. destruct T1 as [(i & -> & Hd)|[-> _]]; [|reflexivity].
    exfalso. exact (Stuck k1 x Hp i Hd).
  - split; [exact I|]. intros b Hb. destruct (O b Hb) as [-> ->]. rewrite Em2. auto.
Qed.
