(** Proofs about the current schema. *)
From Verif Require Import Base SqlVal Adb AdbSpec AdbProofs ResolveSpec Chain Store FsStore FsSpec FsProofs
  ResolveProofs Codegen Maint MaintProofs Current CurrentSpec.
From Coq Require Import Permutation.

Notation cur := "current"%string.

(** * Reading *)
Lemma holds_ext fs T Y T' Y' : (forall n, T' n = T n) -> (forall k, Y' k = Y k) ->
  current_holds fs T Y -> current_holds fs T' Y'.
Proof.
  intros ET EY [I F N (ts & S & M & G)]. split; [exact I| | |].
  - intros n. now rewrite ET.
  - intros n t. rewrite ET. apply N.
  - exists ts. split; [exact S|]. split; [intros k; now rewrite EY|exact G].
Qed.
Lemma holds_files fs x T Y : (forall k, get_file cur k x = get_file cur k fs) ->
  current_holds fs T Y -> current_holds x T Y.
Proof.
  intros E [I F N (ts & S & M & G)]. split; [now rewrite E| |exact N|].
  - intros n. now rewrite E.
  - exists ts. rewrite E. auto.
Qed.

Lemma fold_types_tables ts : forall db, a_tables (fold_left (fun db p => add_type db (fst p) (snd p)) ts db) = a_tables db.
Proof. induction ts as [|p ts IH]; intros db; cbn; [reflexivity|]. now rewrite IH. Qed.
Lemma fold_types_types (ts : smap TypeKey DeferredSqlType) : forall db,
  a_types (fold_left (fun db p => add_type db (fst p) (snd p)) ts db)
  = fold_left (fun m p => mput (fst p) (snd p) m) ts (a_types db).
Proof. induction ts as [|p ts IH]; intros db; cbn; [reflexivity|]. now rewrite IH. Qed.
Lemma fold_mput_get (ts : smap TypeKey DeferredSqlType) : forall m, msorted ts -> msorted m ->
  msorted (fold_left (fun m p => mput (fst p) (snd p) m) ts m) /\
  forall k, mget k (fold_left (fun m p => mput (fst p) (snd p) m) ts m)
            = match mget k ts with Some v => Some v | None => mget k m end.
Proof.
  induction ts as [|[a v] ts IH]; intros m S1 S2; [split; [exact S2|reflexivity]|].
  assert (S3 : msorted ts) by (inversion S1; assumption).
  destruct (IH (mput a v m) S3 (mput_sorted a v m S2)) as [S4 G]. cbn [fold_left fst snd]. split; [exact S4|].
  intros k. rewrite G. cbn [mget]. destruct (keqb_spec k a) as [->|N].
  - assert (E : mget a ts = None).
    { apply mget_None. intros X. unfold msorted in S1. cbn in S1. inversion S1 as [|? ? ? F]; subst.
      rewrite Forall_forall in F. apply F in X. now apply klt_irrefl in X. }
    rewrite E. rewrite mget_mput by exact S2. now rewrite keqb_refl.
  - destruct (mget k ts); [reflexivity|]. rewrite mget_mput by exact S2.
    now rewrite (proj2 (keqb_neq _ _) N).
Qed.

(** The entries of the directory that have been looked at are in the schema. *)
Lemma entries_read fs T Y ts l : forall db,
  (forall n, get_file cur (table_file n) fs = option_map FTable (T n)) ->
  (forall n t, T n = Some t -> t_name t = n) ->
  msorted ts -> (forall k, mget k ts = Y k) ->
  (get_file cur "types.json" fs = Some (FTypes ts) \/ get_file cur "types.json" fs = None) ->
  (forall k, In k l -> exists f, get_file cur k fs = Some f) ->
  msorted (a_tables db) -> msorted (a_types db) ->
  exists db', ofold (fs_entry cur fs) l db = Ok db' /\ msorted (a_tables db') /\ msorted (a_types db') /\
    (forall n, mget n (a_tables db') = if kmem (table_file n) l then T n else mget n (a_tables db)) /\
    (forall k, mget k (a_types db')
               = if kmem "types.json"%string l then match Y k with Some v => Some v | None => mget k (a_types db) end
                 else mget k (a_types db)).
Proof.
  intros db F N S M G IN. revert db. induction l as [|x l IH]; intros db S1 S2.
  - exists db. cbn. auto 10.
  - assert (IN' : forall k, In k l -> exists f, get_file cur k fs = Some f) by (intros; apply IN; now right).
    cbn [ofold]. unfold fs_entry at 1. destruct (ends_with x ".table") eqn:E.
    + apply ends_with_iff in E as [n ->]. change (n ++ ".table")%string with (table_file n) in *.
      destruct (IN (table_file n) (or_introl eq_refl)) as [f Hf]. pose proof Hf as Hf'. rewrite F in Hf'.
      destruct (T n) as [t|] eqn:ET; [|discriminate]. injection Hf' as <-. unfold read_table. rewrite Hf. cbn [omap obind].
      pose proof (N n t ET) as <-.
      destruct (IH IN' (replace_table db t)) as (db' & E' & S3 & S4 & G1 & G2); [|exact S2|].
      { cbn. now apply mput_sorted. }
      exists db'. split; [exact E'|]. split; [exact S3|]. split; [exact S4|]. split.
      * intros m. rewrite G1. rewrite kmem_cons. destruct (keqb_spec (table_file m) (table_file (t_name t))) as [Q|Q].
        -- apply table_file_inj in Q. subst m. cbn [orb]. destruct (kmem (table_file (t_name t)) l); [congruence|]. cbn.
           rewrite mget_mput by exact S1. rewrite keqb_refl. congruence.
        -- cbn [orb]. destruct (kmem (table_file m) l); [reflexivity|]. cbn. rewrite mget_mput by exact S1.
           destruct (keqb_spec m (t_name t)) as [->|]; [now destruct Q|reflexivity].
      * intros k. rewrite G2. rewrite kmem_cons. destruct (keqb_spec "types.json"%string (table_file (t_name t))) as [Q|Q].
        -- symmetry in Q. now apply table_file_types in Q.
        -- reflexivity.
    + destruct (String.eqb_spec x "types.json") as [->|NE].
      * destruct G as [G|G]; [|destruct (IN _ (or_introl eq_refl)) as [f Hf]; congruence].
        rewrite G. cbn [obind].
        set (db1 := fold_left (fun db p => add_type db (fst p) (snd p)) ts db).
        destruct (fold_mput_get ts (a_types db) S S2) as [S5 G5]. rewrite <- fold_types_types in S5, G5.
        change (fold_left (fun db p => add_type db (fst p) (snd p)) ts db) with db1 in S5, G5.
        pose proof (fold_types_tables ts db) as ET. change (fold_left (fun db p => add_type db (fst p) (snd p)) ts db) with db1 in ET.
        destruct (IH IN' db1) as (db' & E' & S3 & S4 & G1 & G2); [now rewrite ET|exact S5|].
        exists db'. split; [exact E'|]. split; [exact S3|]. split; [exact S4|]. split.
        -- intros m. rewrite G1, ET. rewrite kmem_cons. destruct (keqb_spec (table_file m) "types.json"%string) as [Q|Q].
           ++ now apply table_file_types in Q.
           ++ reflexivity.
        -- intros k. rewrite G2. rewrite kmem_cons, keqb_refl. cbn [orb]. rewrite G5, M.
           destruct (kmem "types.json"%string l); destruct (Y k); reflexivity.
      * cbn [obind]. destruct (IH IN' db S1 S2) as (db' & E' & S3 & S4 & G1 & G2).
        exists db'. split; [exact E'|]. split; [exact S3|]. split; [exact S4|]. split.
        -- intros m. rewrite G1. rewrite kmem_cons. destruct (keqb_spec (table_file m) x) as [<-|Q].
           ++ rewrite table_file_ends in E. discriminate.
           ++ reflexivity.
        -- intros k. rewrite G2. rewrite kmem_cons. destruct (keqb_spec "types.json"%string x) as [Q|Q].
           ++ now subst x.
           ++ reflexivity.
Qed.

Lemma schema_of_unique T Y d d' : schema_of T Y d -> schema_of T Y d' -> d = d'.
Proof.
  intros (A & B & C & D) (A' & B' & C' & D'). destruct d as [t y], d' as [t' y']. cbn in *.
  rewrite (mkeys_ext t t' A A' (fun k => eq_trans (C k) (eq_sym (C' k)))).
  now rewrite (mkeys_ext y y' B B' (fun k => eq_trans (D k) (eq_sym (D' k)))).
Qed.

Lemma read_info_none d fs : get_file d "info.json" fs = None -> read_info d fs = Ok info_new.
Proof. unfold read_info. now intros ->. Qed.
Lemma read_current fs T Y : current_holds fs T Y -> exists d, schema_of T Y d /\ reads_as fs d.
Proof.
  intros [I F N (ts & S & M & G)].
  assert (G' : get_file cur "types.json" fs = Some (FTypes ts) \/ get_file cur "types.json" fs = None) by (destruct G as [G|[G _]]; auto).
  assert (R : forall ls, listing ls -> exists db, ofold (fs_entry cur fs) (ls (dir_files cur fs)) adb_new = Ok db /\ schema_of T Y db).
  { intros ls PL.
    assert (IN : forall k, In k (ls (dir_files cur fs)) <-> exists f, get_file cur k fs = Some f).
    { intros k. rewrite <- dir_files_In. split; apply Permutation_in; [apply PL|apply Permutation_sym, PL]. }
    destruct (entries_read fs T Y ts (ls (dir_files cur fs)) adb_new F N S M G' (fun k => proj1 (IN k)) msorted_nil msorted_nil)
      as (db & E & S3 & S4 & G1 & G2).
    exists db. split; [exact E|]. split; [exact S3|]. split; [exact S4|]. split.
    - intros n. rewrite G1. destruct (kmem (table_file n) (ls (dir_files cur fs))) eqn:K; [reflexivity|]. cbn.
      apply kmem_not_In in K. destruct (T n) as [t|] eqn:ET; [|reflexivity]. destruct K. apply IN. rewrite F, ET. cbn. eauto.
    - intros k. rewrite G2. destruct (kmem "types.json"%string (ls (dir_files cur fs))) eqn:K.
      + cbn. destruct (Y k); reflexivity.
      + cbn. rewrite <- M. apply kmem_not_In in K. destruct G as [G|[_ ->]]; [|reflexivity]. destruct K. apply IN. eauto. }
  destruct (R (fun l => l)) as (d & _ & D); [intros l; apply Permutation_refl|].
  exists d. split; [exact D|]. intros ls PL. destruct (R ls PL) as (d' & E & D').
  rewrite (schema_of_unique T Y d d' D D'). unfold fs_read_db. rewrite (read_info_none _ _ I). cbn [obind in_bases info_new ofold].
  rewrite E. cbn [obind]. unfold resolved. destruct (resolve_types d') as [[a b]| |]; reflexivity.
Qed.

(** A file that is cut off makes reading fail. *)
Lemma entries_cut fs k l : (exists fs0 T Y, current_holds fs0 T Y /\
    forall k', get_file cur k' fs = if String.eqb k' k then Some (FTorn "") else get_file cur k' fs0) ->
  k = "types.json"%string \/ (exists n, k = table_file n) ->
  (forall k, In k l -> exists f, get_file cur k fs = Some f) -> In k l ->
  forall db, ofold (fs_entry cur fs) l db = Err SerdeJson.
Proof.
  intros (fs0 & T & Y & [I F N (ts & S & M & G)] & C) K IN. induction l as [|x l IH]; intros H db; [destruct H|].
  cbn [ofold]. destruct (String.eqb_spec x k) as [->|NE].
  - unfold fs_entry, read_table. destruct K as [->|[n ->]].
    + change (ends_with "types.json" ".table") with false. cbv iota. rewrite String.eqb_refl, C, String.eqb_refl. reflexivity.
    + rewrite table_file_ends, C, String.eqb_refl. reflexivity.
  - destruct H as [H|H]; [congruence|].
    assert (E : exists db', fs_entry cur fs db x = Ok db').
    { destruct (IN x (or_introl eq_refl)) as [f Hf]. pose proof Hf as Hf'. rewrite C in Hf'. rewrite (proj2 (String.eqb_neq _ _) NE) in Hf'.
      unfold fs_entry, read_table. rewrite Hf. destruct (ends_with x ".table") eqn:E.
      - apply ends_with_iff in E as [n ->]. change (n ++ ".table")%string with (table_file n) in *. rewrite F in Hf'.
        destruct (T n); [|discriminate]. injection Hf' as <-. cbn. eauto.
      - destruct (String.eqb_spec x "types.json") as [->|]; [|eauto]. rewrite Hf. destruct G as [G|[G _]]; [|congruence].
        rewrite G in Hf'. injection Hf' as <-. eauto. }
    destruct E as [db' ->]. cbn [obind]. apply IH; [|exact H]. intros; apply IN; now right.
Qed.
Lemma read_cut fs k ls : (exists fs0 T Y, current_holds fs0 T Y /\
    forall k', get_file cur k' fs = if String.eqb k' k then Some (FTorn "") else get_file cur k' fs0) ->
  k = "types.json"%string \/ (exists n, k = table_file n) -> listing ls -> fs_read_db ls cur fs = Err SerdeJson.
Proof.
  intros C K PL. unfold fs_read_db.
  assert (I : read_info cur fs = Ok info_new).
  { apply read_info_none. destruct C as (fs0 & T & Y & [I _ _ _] & C). rewrite C.
    destruct (String.eqb_spec "info.json" k) as [<-|_]; [|exact I].
    destruct K as [K|[n K]]; [discriminate|]. symmetry in K. now apply table_file_info in K. }
  rewrite I. cbn [obind in_bases info_new ofold].
  rewrite (entries_cut fs k); [reflexivity|exact C|exact K| |].
  - intros k' H. apply dir_files_In. eapply Permutation_in; [apply PL|exact H].
  - eapply Permutation_in; [apply Permutation_sym, PL|]. apply dir_files_In. destruct C as (fs0 & T & Y & _ & C).
    rewrite C, String.eqb_refl. eauto.
Qed.

(** * Writing *)

(** What is found while one file is written. *)
Lemma write_file_trace n k f fs o fs' tr : (forall s, f <> FSql s) -> fs_ok fs -> has_dir fs n ->
  write_file n k f fs = (o, fs', tr) ->
  Forall (fun x => (forall k', get_file n k' x = if String.eqb k' k then Some (FTorn "") else get_file n k' fs)
                   \/ (forall k', get_file n k' x = if String.eqb k' k then Some f else get_file n k' fs)) tr.
Proof.
  intros NS OK HD H. unfold write_file in H.
  assert (P : partials f = [FTorn ""]) by (destruct f; try reflexivity; now destruct (NS s)).
  rewrite P in H. cbn [map app fsteps] in H. unfold fbind, fstep, fret in H. injection H as _ _ <-.
  destruct (set_file_get n k (FTorn "") fs OK HD) as [HD1 G1].
  destruct (set_file_get n k f _ (proj1 (set_file_frame n k _ fs OK)) HD1) as [HD2 G2].
  constructor; [now left|]. constructor; [|constructor]. right. intros k'. rewrite G2, G1.
  destruct (String.eqb k' k); reflexivity.
Qed.
Lemma write_trace n k f fs o fs' tr : (forall s, f <> FSql s) -> fs_ok fs ->
  write_contents n k f fs = (o, fs', tr) ->
  Forall (fun x => (forall k', get_file n k' x = get_file n k' fs)
                   \/ (forall k', get_file n k' x = if String.eqb k' k then Some (FTorn "") else get_file n k' fs)
                   \/ (forall k', get_file n k' x = if String.eqb k' k then Some f else get_file n k' fs)) tr.
Proof.
  intros NS OK H. unfold write_contents, fbind in H. destruct (ensure_dir n fs) as [[o1 fs1] t1] eqn:E1.
  destruct (ensure_dir_frame n _ _ _ _ OK E1) as [(O1 & _) _]. destruct (ensure_dir_get n _ _ _ _ OK E1) as [H1 G1].
  assert (ET : o1 = Ok tt /\ t1 = [fs1]) by (unfold ensure_dir, fstep in E1; injection E1 as <- <- <-; auto).
  destruct ET as [-> ->].
  assert (NL : nl_terminated f = Ok f) by (destruct f; try reflexivity; now destruct (NS s)).
  unfold flift in H. rewrite NL in H. destruct (write_file n k f fs1) as [[o2 fs2] t2] eqn:E2.
  pose proof (write_file_trace n k f fs1 _ _ _ NS O1 H1 E2) as W. injection H as _ _ <-. cbn [app].
  constructor; [now left|]. eapply Forall_impl; [|exact W]. intros x [X|X]; [right; left|right; right]; intros k'; rewrite X, G1; reflexivity.
Qed.

(** ** Single recordings *)

(** On the way [fs] changes to hold what the events make of it. *)
Definition after_t (h : list event) (T : string -> option ATable) (n : string) := table_after n h (T n).
Definition after_y (h : list event) (Y : TypeKey -> option DeferredSqlType) (k : TypeKey) := type_after k h (Y k).
Definition cut_from (fs : FS) (T : string -> option ATable) (Y : TypeKey -> option DeferredSqlType) : Prop :=
  exists k fs0, (k = "types.json"%string \/ (exists n, k = table_file n)) /\ current_holds fs0 T Y /\
    forall k', get_file cur k' fs = if String.eqb k' k then Some (FTorn "") else get_file cur k' fs0.
Definition fewer (fs : FS) (T : string -> option ATable) (Y : TypeKey -> option DeferredSqlType) : Prop :=
  exists T' Y', current_holds fs T' Y' /\ (forall n, T' n = T n \/ T' n = None) /\ (forall k, Y' k = Y k \/ Y' k = None).
Definition midway (fs : FS) (T : string -> option ATable) (Y : TypeKey -> option DeferredSqlType) (h : list event) (x : FS) : Prop :=
  frame cur fs x /\ exists h1 h2, h = h1 ++ h2 /\
    (current_holds x (after_t h1 T) (after_y h1 Y) \/ cut_from x (after_t h1 T) (after_y h1 Y)
     \/ (exists r, h2 = AllGone :: r) /\ fewer x (after_t h1 T) (after_y h1 Y)).
Definition does {A} (x : FsM A) (h : list event) : Prop :=
  forall fs T Y o fs' tr, fs_ok fs -> current_holds fs T Y -> x fs = (o, fs', tr) ->
    frame cur fs fs' /\ current_holds fs' (after_t h T) (after_y h Y) /\ Forall (midway fs T Y h) tr.

Lemma does_ret {A} (o : outcome A) : does (flift o) [].
Proof.
  intros fs T Y o' fs' tr OK H E. injection E as _ <- <-. split; [now apply frame_refl|]. split; [exact H|constructor].
Qed.
Lemma after_t_app h1 h2 T n : after_t (h1 ++ h2) T n = after_t h2 (after_t h1 T) n.
Proof. unfold after_t, table_after. now rewrite fold_left_app. Qed.
Lemma after_y_app h1 h2 T n : after_y (h1 ++ h2) T n = after_y h2 (after_y h1 T) n.
Proof. unfold after_y, type_after. now rewrite fold_left_app. Qed.
Lemma midway_app_l fs T Y h h' x : midway fs T Y h x -> midway fs T Y (h ++ h') x.
Proof.
  intros (F & h1 & h2 & -> & H). split; [exact F|]. exists h1, (h2 ++ h'). split; [now rewrite app_assoc|].
  destruct H as [H|[H|[[r ->] H]]]; auto. right. right. split; [|exact H]. cbn. eauto.
Qed.
Lemma midway_app_r fs fs1 T Y h h' x : frame cur fs fs1 -> midway fs1 (after_t h T) (after_y h Y) h' x -> midway fs T Y (h ++ h') x.
Proof.
  intros F1 (F & h1 & h2 & -> & H). split; [eapply frame_trans; eassumption|]. exists (h ++ h1), h2. split; [now rewrite app_assoc|].
  assert (EX : forall z, current_holds z (after_t h1 (after_t h T)) (after_y h1 (after_y h Y)) ->
                         current_holds z (after_t (h ++ h1) T) (after_y (h ++ h1) Y)).
  { intros z. apply holds_ext; intros; [apply after_t_app|apply after_y_app]. }
  destruct H as [H|[(k & fs0 & K & H & C)|[R (T' & Y' & H & HT & HY)]]].
  - left. now apply EX.
  - right. left. exists k, fs0. auto.
  - right. right. split; [exact R|]. exists T', Y'. split; [exact H|]. split; intros z.
    + rewrite after_t_app. apply HT.
    + rewrite after_y_app. apply HY.
Qed.
Lemma does_seq {A B} (x : FsM A) (f : A -> FsM B) h h' : does x h ->
  (forall fs a fs' tr, x fs = (Ok a, fs', tr) -> does (f a) h') ->
  (forall fs T Y o fs' tr, fs_ok fs -> current_holds fs T Y -> x fs = (o, fs', tr) -> exists a, o = Ok a) ->
  does (fbind x f) (h ++ h').
Proof.
  intros D1 D2 OKX fs T Y o fs' tr OK H E. unfold fbind in E. destruct (x fs) as [[o1 fs1] t1] eqn:E1.
  destruct (OKX _ _ _ _ _ _ OK H E1) as [a ->]. destruct (f a fs1) as [[o2 fs2] t2] eqn:E2. injection E as <- <- <-.
  destruct (D1 _ _ _ _ _ _ OK H E1) as (F1 & H1 & M1).
  destruct (D2 _ _ _ _ E1 _ _ _ _ _ _ (proj1 F1) H1 E2) as (F2 & H2 & M2).
  split; [eapply frame_trans; eassumption|]. split.
  - eapply holds_ext; [| |exact H2]; intros; [apply after_t_app|apply after_y_app].
  - apply Forall_app. split.
    + eapply Forall_impl; [|exact M1]. intros x0. apply midway_app_l.
    + eapply Forall_impl; [|exact M2]. intros x0. now apply midway_app_r.
Qed.

Lemma holds_set_table fs x T Y t : current_holds fs T Y ->
  (forall k', get_file cur k' x = if String.eqb k' (table_file (t_name t)) then Some (FTable t) else get_file cur k' fs) ->
  current_holds x (after_t [TableIs t] T) (after_y [TableIs t] Y).
Proof.
  intros [I F N (ts & S & M & G)] C. split.
  - rewrite C. destruct (String.eqb_spec "info.json" (table_file (t_name t))) as [E|_]; [|exact I].
    symmetry in E. now apply table_file_info in E.
  - intros n. rewrite C. unfold after_t. cbn. destruct (String.eqb_spec (table_file n) (table_file (t_name t))) as [E|E].
    + apply table_file_inj in E. subst n. now rewrite String.eqb_refl.
    + destruct (String.eqb_spec (t_name t) n) as [<-|_]; [now destruct E|apply F].
  - intros n t'. unfold after_t. cbn. destruct (String.eqb_spec (t_name t) n) as [<-|_]; [|apply N]. intros [= <-]. reflexivity.
  - exists ts. split; [exact S|]. split; [exact M|]. rewrite C.
    destruct (String.eqb_spec "types.json" (table_file (t_name t))) as [E|_]; [|exact G].
    symmetry in E. now apply table_file_types in E.
Qed.
Lemma holds_set_types fs x T Y k ty ts : current_holds fs T Y -> msorted ts -> (forall k, mget k ts = Y k) ->
  (forall k', get_file cur k' x = if String.eqb k' "types.json" then Some (FTypes (mput k ty ts)) else get_file cur k' fs) ->
  current_holds x (after_t [TypeNamed k ty] T) (after_y [TypeNamed k ty] Y).
Proof.
  intros [I F N _] S M C. split.
  - rewrite C. exact I.
  - intros n. rewrite C. destruct (String.eqb_spec (table_file n) "types.json") as [E|_]; [now apply table_file_types in E|apply F].
  - exact N.
  - exists (mput k ty ts). split; [now apply mput_sorted|]. split.
    + intros k'. rewrite mget_mput by exact S. unfold after_y. cbn. rewrite keqb_sym. destruct (keqb k k'); [reflexivity|apply M].
    + left. now rewrite C, String.eqb_refl.
Qed.

Lemma write_does k f h fs T Y o fs' tr : (forall s, f <> FSql s) -> fs_ok fs -> current_holds fs T Y ->
  k = "types.json"%string \/ (exists n, k = table_file n) ->
  (forall x, (forall k', get_file cur k' x = if String.eqb k' k then Some f else get_file cur k' fs) ->
     current_holds x (after_t h T) (after_y h Y)) ->
  write_contents cur k f fs = (o, fs', tr) ->
  o = Ok tt /\ frame cur fs fs' /\ current_holds fs' (after_t h T) (after_y h Y) /\ Forall (midway fs T Y h) tr.
Proof.
  intros NS OK H K P E. assert (NL : nl_terminated f = Ok f) by (destruct f; try reflexivity; now destruct (NS s)).
  destruct (write_runs cur k f f fs OK NL) as (fs1 & tr1 & E1 & _ & _ & G & FR). rewrite E in E1. injection E1 as -> -> ->.
  split; [reflexivity|]. split; [exact FR|]. split; [now apply P|].
  destruct (write_contents_frame cur k f _ _ _ _ OK E) as [_ FT]. pose proof (write_trace _ _ _ _ _ _ _ NS OK E) as W.
  rewrite Forall_forall in *. intros x X. split; [now apply FT|]. destruct (W x X) as [W1|[W1|W1]].
  - exists [], h. split; [reflexivity|]. left. exact (holds_files fs x T Y W1 H).
  - exists [], h. split; [reflexivity|]. right. left. exists k, fs. auto.
  - exists h, []. split; [now rewrite app_nil_r|]. left. now apply P.
Qed.
Lemma add_modified_does t : does (fs_add_modified cur t) [TableIs t] /\
  forall fs T Y o fs' tr, fs_ok fs -> current_holds fs T Y -> fs_add_modified cur t fs = (o, fs', tr) -> o = Ok tt.
Proof.
  assert (X : forall fs T Y o fs' tr, fs_ok fs -> current_holds fs T Y -> fs_add_modified cur t fs = (o, fs', tr) ->
     o = Ok tt /\ frame cur fs fs' /\ current_holds fs' (after_t [TableIs t] T) (after_y [TableIs t] Y) /\ Forall (midway fs T Y [TableIs t]) tr).
  { intros fs T Y o fs' tr OK H E. eapply write_does; [|exact OK|exact H| | |exact E].
    - intros s; discriminate.
    - right. eauto.
    - intros x C. eapply holds_set_table; [exact H|exact C]. }
  split.
  - intros fs T Y o fs' tr OK H E. apply (X fs T Y o fs' tr OK H E).
  - intros fs T Y o fs' tr OK H E. apply (X fs T Y o fs' tr OK H E).
Qed.
Lemma add_type_does k ty : does (fs_add_type cur k ty) [TypeNamed k ty] /\
  forall fs T Y o fs' tr, fs_ok fs -> current_holds fs T Y -> fs_add_type cur k ty fs = (o, fs', tr) -> o = Ok tt.
Proof.
  assert (X : forall fs T Y o fs' tr, fs_ok fs -> current_holds fs T Y -> fs_add_type cur k ty fs = (o, fs', tr) ->
     o = Ok tt /\ frame cur fs fs' /\ current_holds fs' (after_t [TypeNamed k ty] T) (after_y [TypeNamed k ty] Y)
     /\ Forall (midway fs T Y [TypeNamed k ty]) tr).
  { intros fs T Y o fs' tr OK H E. unfold fs_add_type, fbind, fread in E. pose proof H as [_ _ _ (ts & S & M & G)].
    assert (E' : exists tr', write_contents cur "types.json" (FTypes (mput k ty ts)) fs = (o, fs', tr') /\ tr = tr').
    { destruct G as [G|[G ->]]; rewrite G in E; destruct (write_contents _ _ _ fs) as [[o1 f1] t1]; injection E as <- <- <-; eauto. }
    destruct E' as (tr' & E' & ->). eapply write_does; [|exact OK|exact H| | |exact E'].
    - intros s; discriminate.
    - now left.
    - intros x C. eapply holds_set_types; eassumption. }
  split.
  - intros fs T Y o fs' tr OK H E. apply (X fs T Y o fs' tr OK H E).
  - intros fs T Y o fs' tr OK H E. apply (X fs T Y o fs' tr OK H E).
Qed.

Definition succeeds {A} (x : FsM A) : Prop :=
  forall fs T Y o fs' tr, fs_ok fs -> current_holds fs T Y -> x fs = (o, fs', tr) -> exists a, o = Ok a.
Lemma add_tables_does ts : does (add_tables ts) (map TableIs ts) /\ succeeds (add_tables ts).
Proof.
  induction ts as [|t ts [IH1 IH2]]; cbn [add_tables map].
  - split; [exact (does_ret (Ok tt))|]. intros fs T Y o fs' tr OK H E. injection E as <- _ _. eauto.
  - destruct (add_modified_does t) as [D S]. split.
    + apply (does_seq _ _ [TableIs t]); [exact D|intros; exact IH1|]. intros fs T Y o fs' tr OK H E. rewrite (S _ _ _ _ _ _ OK H E). eauto.
    + intros fs T Y o fs' tr OK H E. unfold fbind in E. destruct (fs_add_modified cur t fs) as [[o1 f1] t1] eqn:E1.
      rewrite (S _ _ _ _ _ _ OK H E1) in *. destruct (D _ _ _ _ _ _ OK H E1) as (F1 & H1 & _).
      destruct (add_tables ts f1) as [[o2 f2] t2] eqn:E2. injection E as <- _ _. eapply IH2; [apply F1|exact H1|exact E2].
Qed.
Lemma add_types_does l : does (add_types l) (map (fun p => TypeNamed (fst p) (snd p)) l) /\ succeeds (add_types l).
Proof.
  induction l as [|[k ty] l [IH1 IH2]]; cbn [add_types map].
  - split; [exact (does_ret (Ok tt))|]. intros fs T Y o fs' tr OK H E. injection E as <- _ _. eauto.
  - destruct (add_type_does k ty) as [D S]. split.
    + apply (does_seq _ _ [TypeNamed k ty]); [exact D|intros; exact IH1|]. intros fs T Y o fs' tr OK H E. rewrite (S _ _ _ _ _ _ OK H E). eauto.
    + intros fs T Y o fs' tr OK H E. unfold fbind in E. destruct (fs_add_type cur k ty fs) as [[o1 f1] t1] eqn:E1.
      rewrite (S _ _ _ _ _ _ OK H E1) in *. destruct (D _ _ _ _ _ _ OK H E1) as (F1 & H1 & _).
      destruct (add_types l f1) as [[o2 f2] t2] eqn:E2. injection E as <- _ _. eapply IH2; [apply F1|exact H1|exact E2].
Qed.
Lemma write_model_does resolve s : does (write_table_to_disk resolve s) (events resolve (Build s)).
Proof.
  unfold write_table_to_disk, events. destruct (create_atables resolve s) as [ts|e|] eqn:EC.
  - destruct (add_tables_does ts) as [D S]. destruct (add_types_does (recorded_types s)) as [D2 S2].
    change (map TableIs ts ++ map (fun p => TypeNamed (fst p) (snd p)) (recorded_types s))
      with ([] ++ (map TableIs ts ++ map (fun p => TypeNamed (fst p) (snd p)) (recorded_types s))).
    apply does_seq; [exact (does_ret _)| |].
    + intros fs a fs' tr E. injection E as <- _ _. apply does_seq; [exact D|intros; exact D2|exact S].
    + intros fs T Y o fs' tr _ _ E. injection E as <- _ _. eauto.
  - intros fs T Y o fs' tr OK H E. injection E as _ <- <-. split; [now apply frame_refl|]. split; [exact H|constructor].
  - intros fs T Y o fs' tr OK H E. injection E as _ <- <-. split; [now apply frame_refl|]. split; [exact H|constructor].
Qed.
Lemma write_model_outcome resolve s fs T Y o fs' tr : fs_ok fs -> current_holds fs T Y ->
  write_table_to_disk resolve s fs = (o, fs', tr) -> (o = Ok tt <-> exists ts, create_atables resolve s = Ok ts).
Proof.
  intros OK H E. unfold write_table_to_disk in E. destruct (create_atables resolve s) as [ts|e|] eqn:EC.
  - assert (X : o = Ok tt); [|split; [eauto|auto]].
    unfold fbind at 1, flift in E. cbn beta iota in E. unfold fbind in E. destruct (add_tables_does ts) as [D S].
    destruct (add_types_does (recorded_types s)) as [D2 S2].
    destruct (add_tables ts fs) as [[o1 f1] t1] eqn:E1. destruct (S _ _ _ _ _ _ OK H E1) as [a ->].
    destruct (D _ _ _ _ _ _ OK H E1) as (F1 & H1 & _).
    destruct (add_types (recorded_types s) f1) as [[o2 f2] t2] eqn:E2.
    destruct (S2 _ _ _ _ _ _ (proj1 F1) H1 E2) as [[] ->]. now injection E as <- _ _.
  - injection E as <- _ _. split; [discriminate|intros [ts X]; discriminate].
  - injection E as <- _ _. split; [discriminate|intros [ts X]; discriminate].
Qed.

Lemma holds_delete fs x T Y n : current_holds fs T Y ->
  (forall k', get_file cur k' x = if String.eqb k' (table_file n) then None else get_file cur k' fs) ->
  current_holds x (after_t [TableGone n] T) (after_y [TableGone n] Y).
Proof.
  intros [I F N (ts & S & M & G)] C. split.
  - rewrite C. destruct (String.eqb _ _); [reflexivity|exact I].
  - intros m. rewrite C. unfold after_t. cbn. destruct (String.eqb_spec (table_file m) (table_file n)) as [E|E].
    + apply table_file_inj in E. subst m. now rewrite String.eqb_refl.
    + destruct (String.eqb_spec n m) as [<-|_]; [now destruct E|apply F].
  - intros m t'. unfold after_t. cbn. destruct (String.eqb_spec n m) as [<-|_]; [discriminate|apply N].
  - exists ts. split; [exact S|]. split; [exact M|]. rewrite C.
    destruct (String.eqb_spec "types.json" (table_file n)) as [E|_]; [|exact G].
    symmetry in E. now apply table_file_types in E.
Qed.
Lemma delete_table_does n : forall fs T Y o fs' tr, fs_ok fs -> current_holds fs T Y ->
  fs_delete_table cur n fs = (o, fs', tr) ->
  (o = Ok tt <-> T n <> None) /\ (T n = None -> o = Err IOError) /\
  frame cur fs fs' /\ current_holds fs' (after_t [TableGone n] T) (after_y [TableGone n] Y) /\ Forall (midway fs T Y [TableGone n]) tr.
Proof.
  intros fs T Y o fs' tr OK H E. unfold fs_delete_table, fbind in E. destruct (ensure_dir cur fs) as [[o1 fs1] t1] eqn:E1.
  destruct (ensure_dir_frame cur _ _ _ _ OK E1) as [F1 FT1]. destruct (ensure_dir_get cur _ _ _ _ OK E1) as [H1 G1].
  assert (ET : o1 = Ok tt /\ t1 = [fs1]) by (unfold ensure_dir, fstep in E1; injection E1 as <- <- <-; auto). destruct ET as [-> ->].
  unfold fread in E. assert (C : get_file cur (table_file n) fs1 = option_map FTable (T n)) by (rewrite G1; apply H).
  assert (HH1 : current_holds fs1 T Y) by (eapply holds_files; [exact G1|exact H]).
  assert (M1 : midway fs T Y [TableGone n] fs1).
  { split; [exact F1|]. exists [], [TableGone n]. split; [reflexivity|]. left. exact HH1. }
  rewrite C in E. destruct (T n) as [t|] eqn:ET; cbn [option_map] in E.
  - unfold fstep in E. injection E as <- <- <-. destruct (del_file_get cur (table_file n) fs1 (proj1 F1) H1) as [H2 G2].
    pose proof (del_file_frame cur (table_file n) fs1 (proj1 F1)) as F2.
    assert (HH : current_holds (del_file cur (table_file n) fs1) (after_t [TableGone n] T) (after_y [TableGone n] Y)).
    { eapply holds_delete; [exact HH1|]. exact G2. }
    split; [split; [intros _; discriminate|reflexivity]|]. split; [discriminate|].
    split; [eapply frame_trans; eassumption|]. split; [exact HH|]. constructor; [exact M1|]. constructor; [|constructor].
    split; [eapply frame_trans; eassumption|]. exists [TableGone n], []. split; [reflexivity|]. now left.
  - unfold flift in E. injection E as <- <- <-. split; [split; [discriminate|intros X; now destruct X]|]. split; [reflexivity|].
    split; [exact F1|]. split.
    + eapply holds_ext; [| |exact HH1]; [|reflexivity]. intros m. unfold after_t. cbn.
      destruct (String.eqb_spec n m) as [<-|_]; [now rewrite ET|reflexivity].
    + cbn. constructor; [exact M1|constructor].
Qed.

Lemma fewer_of fs x T Y : current_holds fs T Y ->
  (forall k, get_file cur k x = get_file cur k fs \/ get_file cur k x = None) -> fewer x T Y.
Proof.
  intros [I F N (ts & S & M & G)] C.
  exists (fun n => match get_file cur (table_file n) x with Some _ => T n | None => None end).
  exists (fun k => match get_file cur "types.json" x with Some _ => Y k | None => None end).
  split; [split|split].
  - destruct (C "info.json"%string); congruence.
  - intros n. destruct (C (table_file n)) as [E|E]; rewrite E; [|reflexivity]. rewrite F. destruct (T n); reflexivity.
  - intros n t. destruct (get_file cur (table_file n) x); [apply N|discriminate].
  - destruct (get_file cur "types.json" x) as [f|] eqn:E.
    + exists ts. split; [exact S|]. split; [exact M|]. left. destruct (C "types.json"%string) as [E'|E']; rewrite E in E'; [|discriminate].
      rewrite E'. destruct G as [G|[G _]]; [exact G|congruence].
    + exists []. split; [apply msorted_nil|]. split; [reflexivity|]. now right.
  - intros n. destruct (get_file cur (table_file n) x); auto.
  - intros k. destruct (get_file cur "types.json" x); auto.
Qed.
Lemma deletes_trace l : forall fs o fs' tr, fs_ok fs -> has_dir fs cur -> fsteps (map (del_file cur) l) fs = (o, fs', tr) ->
  o = Ok tt /\ has_dir fs' cur /\ frame cur fs fs' /\
  Forall (fun x => frame cur fs x /\ forall k, get_file cur k x = get_file cur k fs \/ get_file cur k x = None) tr.
Proof.
  induction l as [|n l IH]; intros fs o fs' tr OK HD E; cbn [map fsteps] in E.
  - injection E as <- <- <-. split; [reflexivity|]. split; [exact HD|]. split; [now apply frame_refl|constructor].
  - unfold fbind, fstep in E. destruct (fsteps (map (del_file cur) l) (del_file cur n fs)) as [[o2 f2] t2] eqn:E2.
    injection E as <- <- <-. destruct (del_file_get cur n fs OK HD) as [H1 G1]. pose proof (del_file_frame cur n fs OK) as F1.
    destruct (IH _ _ _ _ (proj1 F1) H1 E2) as (-> & H2 & F2 & FT). split; [reflexivity|]. split; [exact H2|].
    split; [eapply frame_trans; eassumption|]. constructor.
    + split; [exact F1|]. intros k. rewrite G1. destruct (String.eqb k n); auto.
    + eapply Forall_impl; [|exact FT]. intros x [FX CX]. split; [eapply frame_trans; eassumption|]. intros k.
      destruct (CX k) as [->| ->]; [|auto]. rewrite G1. destruct (String.eqb k n); auto.
Qed.
Lemma holds_none x T Y : (forall k, get_file cur k x = None) -> current_holds x (after_t [AllGone] T) (after_y [AllGone] Y).
Proof.
  intros G. split; [apply G| |discriminate|].
  - intros n. rewrite G. reflexivity.
  - exists []. split; [apply msorted_nil|]. split; [reflexivity|]. right. auto.
Qed.
Lemma clean_any ls : forall fs o fs' tr, fs_ok fs -> fs_clear_current ls fs = (o, fs', tr) ->
  (o = Ok tt <-> has_dir fs cur) /\ (~ has_dir fs cur -> o = Err IOError) /\ frame cur fs fs' /\ ~ has_dir fs' cur /\
  (forall k, get_file cur k fs' = None) /\
  Forall (fun x => frame cur fs x /\ forall k, get_file cur k x = get_file cur k fs \/ get_file cur k x = None) tr.
Proof.
  intros fs o fs' tr OK E. unfold fs_clear_current, remove_dir_all, fbind, fread in E.
  destruct (mget cur (fs_dirs fs)) as [dir|] eqn:ED.
  - assert (HD : has_dir fs cur) by (exists dir; exact ED).
    destruct (fsteps (map (del_file cur) (ls (mkeys dir))) fs) as [[o1 f1] t1] eqn:E1.
    destruct (deletes_trace _ _ _ _ _ OK HD E1) as (-> & H1 & F1 & FT). unfold fstep in E. injection E as <- <- <-.
    assert (GM : forall m, mget m (fs_dirs (drop_dir cur f1)) = if String.eqb m cur then None else mget m (fs_dirs f1)).
    { intros m. cbn [drop_dir fs_dirs]. rewrite mget_mdel. destruct (String.eqb_spec m cur) as [->|N]; [now rewrite keqb_refl|].
      now rewrite (proj2 (keqb_neq m cur) N). }
    assert (GN : forall k, get_file cur k (drop_dir cur f1) = None) by (intros k; unfold get_file; now rewrite GM, String.eqb_refl).
    assert (ND : ~ has_dir (drop_dir cur f1) cur) by (intros [z Z]; rewrite GM, String.eqb_refl in Z; discriminate).
    assert (F2 : frame cur fs (drop_dir cur f1)).
    { destruct F1 as ([O1 O2] & S1 & S2). split; [split|split].
      - cbn [drop_dir fs_dirs]. now apply mdel_sorted.
      - intros m dm Hm. rewrite GM in Hm. destruct (String.eqb m cur); [discriminate|]. now apply (O2 m dm).
      - intros m N. rewrite GM. rewrite (proj2 (String.eqb_neq _ _) N). now apply S1.
      - exact S2. }
    split; [split; auto|]. split; [intros X; now destruct X|]. split; [exact F2|]. split; [exact ND|].
    split; [exact GN|]. apply Forall_app. split; [exact FT|]. constructor; [|constructor]. split; [exact F2|]. auto.
  - injection E as <- <- <-. assert (ND : ~ has_dir fs cur) by (intros [z Z]; congruence).
    split; [split; [discriminate|intros X; now destruct ND]|]. split; [reflexivity|]. split; [now apply frame_refl|]. split; [exact ND|].
    split; [|constructor]. intros k. unfold get_file. now rewrite ED.
Qed.
Lemma clean_does ls : forall fs T Y o fs' tr, fs_ok fs -> current_holds fs T Y ->
  fs_clear_current ls fs = (o, fs', tr) ->
  (o = Ok tt <-> has_dir fs cur) /\ (~ has_dir fs cur -> o = Err IOError) /\ frame cur fs fs' /\ ~ has_dir fs' cur /\
  current_holds fs' (after_t [AllGone] T) (after_y [AllGone] Y) /\ Forall (midway fs T Y [AllGone]) tr.
Proof.
  intros fs T Y o fs' tr OK H E. destruct (clean_any ls fs o fs' tr OK E) as (A & B & C & D & G & FT).
  split; [exact A|]. split; [exact B|]. split; [exact C|]. split; [exact D|]. split; [now apply holds_none|].
  eapply Forall_impl; [|exact FT]. intros x [FX CX]. split; [exact FX|]. exists [], [AllGone]. split; [reflexivity|].
  right. right. split; [eauto|]. exact (fewer_of fs x T Y H CX).
Qed.

(** * Any history *)
Lemma command_does resolve ls c : does (run_command resolve ls c) (events resolve c).
Proof.
  destruct c as [s|n d|n|]; cbn [run_command].
  - apply write_model_does.
  - apply add_type_does.
  - intros fs T Y o fs' tr OK H E. apply (delete_table_does n fs T Y o fs' tr OK H E).
  - intros fs T Y o fs' tr OK H E. destruct (clean_does ls fs T Y o fs' tr OK H E) as (_ & _ & A & _ & B & C). auto.
Qed.
Lemma commands_do resolve ls l : forall fs T Y fs' tr, fs_ok fs -> current_holds fs T Y ->
  run_commands resolve ls l fs = (fs', tr) ->
  frame cur fs fs' /\ current_holds fs' (after_t (flat_map (events resolve) l) T) (after_y (flat_map (events resolve) l) Y)
  /\ Forall (midway fs T Y (flat_map (events resolve) l)) tr.
Proof.
  induction l as [|c l IH]; intros fs T Y fs' tr OK H E; cbn [run_commands flat_map] in *.
  - injection E as <- <-. split; [now apply frame_refl|]. split; [exact H|constructor].
  - destruct (run_command resolve ls c fs) as [[o f1] t1] eqn:E1.
    destruct (run_commands resolve ls l f1) as [f2 t2] eqn:E2. injection E as <- <-.
    destruct (command_does resolve ls c _ _ _ _ _ _ OK H E1) as (F1 & H1 & M1).
    destruct (IH _ _ _ _ _ (proj1 F1) H1 E2) as (F2 & H2 & M2).
    split; [eapply frame_trans; eassumption|]. split.
    + eapply holds_ext; [| |exact H2]; intros; [apply after_t_app|apply after_y_app].
    + apply Forall_app. split.
      * eapply Forall_impl; [|exact M1]. intros x. apply midway_app_l.
      * eapply Forall_impl; [|exact M2]. intros x. now apply midway_app_r.
Qed.

(** * Describing *)

Lemma opt_aref_true a b : (forall x, a <> Some (RefDeferred x)) -> (forall x, b <> Some (RefDeferred x)) ->
  (opt_eqb aref_eqb a b = true <-> a = b).
Proof.
  intros A B. destruct a as [[x|x]|], b as [[y|y]|]; cbn; try (now destruct (A x)); try (now destruct (B y));
    try (split; congruence).
  rewrite andb_true_iff, !String.eqb_eq. destruct x, y; cbn. split; [intros [-> ->]; reflexivity|intros [= -> ->]; auto].
Qed.
Lemma in_if {A} (b : bool) (x y : A) : In x (if b then [] else [y]) <-> b = false /\ x = y.
Proof. destruct b; cbn; [split; [intros []|intros []; discriminate]|]. split; [intros [->|[]]; auto|intros [_ ->]; auto]. Qed.
Lemma typeid_eqb_iff a b : typeid_eqb a b = false <-> a <> b.
Proof. destruct (typeid_eqb_spec a b); split; congruence. Qed.
Lemma bool_eqb_iff a b : Bool.eqb a b = false <-> a <> b.
Proof. rewrite Bool.eqb_false_iff. reflexivity. Qed.
Lemma opt_sqlval_iff a b : opt_eqb sqlval_eqb a b = false <->
  ~ (match a, b with None, None => True | Some x, Some y => sqlval_same x y | _, _ => False end).
Proof.
  destruct a, b; cbn; try (split; [discriminate|intros X; now destruct X]); try (split; [intros _ []|reflexivity]).
  rewrite <- sqlval_eqb_same. destruct (sqlval_eqb _ _); split; congruence.
Qed.
Lemma shown_ref_ok r : (forall x, r <> Some (RefDeferred x)) -> exists l, shown_ref r = Ok l /\ option_map RefLiteral l = r.
Proof. destruct r as [[x|x]|]; intros H; [eexists; split; reflexivity|now destruct (H x)|exists None; split; reflexivity]. Qed.
Lemma option_ref_inj (a b : option ARefLiteral) : option_map RefLiteral a = option_map RefLiteral b -> a = b.
Proof. destruct a, b; cbn; congruence. Qed.

Lemma column_told x y : (exists ty, typeid x = Ok ty) -> (forall r, c_ref x <> Some (RefDeferred r)) ->
  (exists ty, typeid y = Ok ty) -> (forall r, c_ref y <> Some (RefDeferred r)) ->
  exists l, column_diff_lines x y = Ok l /\ tells x y l /\ (c_name x = c_name y -> ~ same_column x y -> l <> []).
Proof.
  intros [tx Ex] Rx [ty Ey] Ry. unfold column_diff_lines. rewrite Ex, Ey. cbn [obind].
  destruct (shown_ref_ok _ Rx) as (rx & Sx & Mx). destruct (shown_ref_ok _ Ry) as (ry & Sy & My).
  rewrite Sx, Sy. cbn [obind].
  set (refs := if opt_eqb aref_eqb (c_ref x) (c_ref y) then [] else [ReferenceIs rx ry]).
  assert (ER : (if opt_eqb aref_eqb (c_ref x) (c_ref y) then Ok [] else Ok [ReferenceIs rx ry]) = Ok refs)
    by (unfold refs; destruct (opt_eqb _ _ _); reflexivity).
  rewrite ER. cbn [obind]. eexists. split; [reflexivity|].
  assert (RR : opt_eqb aref_eqb (c_ref x) (c_ref y) = false <-> rx <> ry).
  { rewrite <- not_true_iff_false, (opt_aref_true _ _ Rx Ry). rewrite <- Mx, <- My. split.
    - intros H ->. now apply H.
    - intros H E. now apply option_ref_inj in E. }
  split.
  - unfold tells. repeat apply conj; intros a b; rewrite !in_app_iff; unfold refs; rewrite !in_if.
    + rewrite typeid_eqb_iff. rewrite Ex, Ey. split.
      * intros [[N E]|[[_ E]|[[_ E]|[[_ E]|[[_ E]|[[_ E]|[_ E]]]]]]]; inversion E; subst; auto.
      * intros ([= ->] & [= ->] & N). left. auto.
    + rewrite bool_eqb_iff. split.
      * intros [[_ E]|[[N E]|[[_ E]|[[_ E]|[[_ E]|[[_ E]|[_ E]]]]]]]; inversion E; subst; auto.
      * intros (-> & -> & N). auto.
    + rewrite bool_eqb_iff. split.
      * intros [[_ E]|[[_ E]|[[N E]|[[_ E]|[[_ E]|[[_ E]|[_ E]]]]]]]; inversion E; subst; auto.
        rewrite bool_eqb_iff in N. auto.
      * intros (-> & -> & N). apply bool_eqb_iff in N. auto 6.
    + split.
      * intros [[_ E]|[[_ E]|[[_ E]|[[N E]|[[_ E]|[[_ E]|[_ E]]]]]]]; inversion E; subst; auto.
        rewrite bool_eqb_iff in N. auto.
      * intros (-> & -> & N). apply bool_eqb_iff in N. auto 7.
    + split.
      * intros [[_ E]|[[_ E]|[[_ E]|[[_ E]|[[N E]|[[_ E]|[_ E]]]]]]]; inversion E; subst; auto.
        rewrite bool_eqb_iff in N. auto.
      * intros (-> & -> & N). apply bool_eqb_iff in N. auto 8.
    + split.
      * intros [[_ E]|[[_ E]|[[_ E]|[[_ E]|[[_ E]|[[N E]|[_ E]]]]]]]; inversion E; subst; auto.
        rewrite opt_sqlval_iff in N. auto.
      * intros (-> & -> & N). apply opt_sqlval_iff in N. auto 9.
    + split.
      * intros [[_ E]|[[_ E]|[[_ E]|[[_ E]|[[_ E]|[[_ E]|[N E]]]]]]]; inversion E; subst; auto.
        rewrite RR in N. auto.
      * intros (E1 & E2 & N). rewrite <- Mx in E1. rewrite <- My in E2. apply option_ref_inj in E1, E2. subst a b.
        apply RR in N. auto 9.
  - intros EN NS E. apply NS.
    apply app_eq_nil in E as [E1 E]. apply app_eq_nil in E as [E2 E]. apply app_eq_nil in E as [E3 E].
    apply app_eq_nil in E as [E4 E]. apply app_eq_nil in E as [E5 E]. apply app_eq_nil in E as [E6 E7].
    assert (K : forall (b : bool) (z : line), (if b then [] else [z]) = [] -> b = true) by (intros [] ? ?; [reflexivity|discriminate]).
    apply K in E1, E2, E3, E4, E5, E6, E7.
    split; [exact EN| | | | | | |].
    + unfold same_type, type_denotes. unfold typeid in Ex, Ey. destruct (typeid_eqb_spec tx ty) as [<-|]; [|discriminate].
      destruct (c_type x), (c_type y); congruence.
    + now apply Bool.eqb_prop.
    + now apply Bool.eqb_prop.
    + now apply Bool.eqb_prop.
    + now apply Bool.eqb_prop.
    + destruct (c_default x), (c_default y); cbn in E6 |- *; try discriminate; auto. now apply sqlval_eqb_same.
    + apply opt_aref_true in E7; [|assumption..]. rewrite E7. destruct (c_ref y) as [[r|r]|]; cbn; auto. now destruct (Ry r).
Qed.

Lemma ops_lines_ok ops : (forall op, In op ops -> exists l, op_lines op = Ok l) -> exists L, ops_lines ops = Ok L.
Proof.
  induction ops as [|op r IH]; intros H; cbn; [eauto|]. destruct (H op (or_introl eq_refl)) as [l ->].
  destruct IH as [L ->]; [intros; apply H; now right|]. cbn. eauto.
Qed.
Lemma ops_lines_part op : forall ops L l, ops_lines ops = Ok L -> In op ops -> op_lines op = Ok l -> exists a b, L = a ++ l ++ b.
Proof.
  induction ops as [|o r IH]; intros L l E H El; [destruct H|]. cbn in E.
  destruct (op_lines o) as [lo| |] eqn:Eo; cbn in E; try discriminate.
  destruct (ops_lines r) as [k| |] eqn:Er; cbn in E; try discriminate. injection E as <-.
  destruct H as [->|H].
  - rewrite El in Eo. injection Eo as <-. exists [], k. reflexivity.
  - destruct (IH k l eq_refl H El) as (a & b & ->). exists (lo ++ a), b. now rewrite <- app_assoc.
Qed.
Lemma ops_lines_from x : forall ops L, ops_lines ops = Ok L -> In x L -> exists op l, In op ops /\ op_lines op = Ok l /\ In x l.
Proof.
  induction ops as [|o r IH]; intros L E H; cbn in E; [injection E as <-; destruct H|].
  destruct (op_lines o) as [lo| |] eqn:Eo; cbn in E; try discriminate.
  destruct (ops_lines r) as [k| |] eqn:Er; cbn in E; try discriminate. injection E as <-.
  apply in_app_or in H as [H|H].
  - exists o, lo. cbn. auto.
  - destruct (IH k eq_refl H) as (op & l & A & B & C). exists op, l. cbn. auto.
Qed.
Lemma column_lines_ok l : (forall c, In c l -> exists ty, typeid c = Ok ty) ->
  exists k, column_lines l = Ok k /\ Forall2 (fun c x => exists ty, typeid c = Ok ty /\ x = TableColumn (c_name c) ty) l k.
Proof.
  induction l as [|c l IH]; intros H; cbn; [exists []; auto|]. destruct (H c (or_introl eq_refl)) as [ty E]. rewrite E.
  destruct IH as (k & -> & F); [intros; apply H; now right|]. cbn. eexists. split; [reflexivity|]. constructor; eauto.
Qed.
Lemma column_lines_in l k x : column_lines l = Ok k -> In x k -> exists n ty, x = TableColumn n ty.
Proof.
  revert k. induction l as [|c l IH]; intros k E H; cbn in E; [injection E as <-; destruct H|].
  destruct (typeid c); cbn in E; try discriminate. destruct (column_lines l) eqn:El; cbn in E; try discriminate.
  injection E as <-. destruct H as [<-|H]; eauto.
Qed.
(** The lines of a change speak of the column's properties only. *)
Definition detail (x : line) : Prop :=
  match x with
  | TypeIs _ _ | PkIs _ _ | AutoIs _ _ | NullableIs _ _ | UniqueIs _ _ | DefaultIs _ _ | ReferenceIs _ _ => True
  | _ => False
  end.
Lemma column_diff_detail a b l x : column_diff_lines a b = Ok l -> In x l -> detail x.
Proof.
  unfold column_diff_lines. intros E H. destruct (typeid a); cbn in E; try discriminate.
  destruct (typeid b); cbn in E; try discriminate.
  set (R := if opt_eqb aref_eqb (c_ref a) (c_ref b) then Ok []
       else do y <- shown_ref (c_ref a); do z <- shown_ref (c_ref b); Ok [ReferenceIs y z]) in E.
  assert (HR : forall k, R = Ok k -> forall x, In x k -> detail x).
  { unfold R. intros k EK z Z. destruct (opt_eqb _ _ _); [injection EK as <-; destruct Z|].
    destruct (shown_ref (c_ref a)); cbn in EK; try discriminate. destruct (shown_ref (c_ref b)); cbn in EK; try discriminate.
    injection EK as <-. destruct Z as [<-|[]]. exact I. }
  destruct R as [k| |]; cbn in E; try discriminate. injection E as <-.
  rewrite !in_app_iff, !in_if in H. destruct H as [[_ ->]|[[_ ->]|[[_ ->]|[[_ ->]|[[_ ->]|[[_ ->]|H]]]]]]; try exact I.
  exact (HR k eq_refl x H).
Qed.

Section Describe.
Variables (old new : ADB) (ops : list Operation).
Hypothesis Wo : wf_schema old.
Hypothesis Wn : wf_schema new.
Hypothesis So : showable old.
Hypothesis Sn : showable new.
Hypothesis D : diff_out old new = Ok ops.

Lemma ops_just op : In op ops <-> op_justified old new op.
Proof. rewrite diff_eq in D. injection D as <-. apply (diff_In old new Wo Wn). Qed.
Lemma op_told op : In op ops -> exists l, op_lines op = Ok l.
Proof.
  intros H. apply ops_just in H. destruct op as [t|t|t|n|n c|n c|n x y|t]; cbn in *; eauto.
  - destruct H as [H _]. destruct (column_lines_ok (t_cols t)) as (k & -> & _); [|cbn; eauto].
    intros c Hc. apply (Sn _ _ _ H Hc).
  - destruct H.
  - destruct H as (t & u & _ & Hu & Hc & _). destruct (proj1 (Sn _ _ _ Hu Hc)) as [ty ->]. cbn. eauto.
  - destruct H as (t & u & Ht & Hu & Hx & Hy & EN & NS). rewrite EN, String.eqb_refl.
    destruct (So _ _ _ Ht Hx) as [Tx Rx]. destruct (Sn _ _ _ Hu Hy) as [Ty Ry].
    destruct (column_told x y Tx Rx Ty Ry) as (l & -> & _). cbn. eauto.
Qed.
Lemma describes : exists L, print_ops ops = Ok L /\ described old new L.
Proof.
  destruct (ops_lines_ok ops op_told) as [L0 E0].
  assert (EX : exists L, print_ops ops = Ok L /\ ((ops = [] /\ L = [NoChanges]) \/ (ops <> [] /\ ops_lines ops = Ok L))).
  { destruct ops as [|op r]; [eexists; split; [reflexivity|]; left; auto|]. exists L0. split; [exact E0|]. right. split; [discriminate|exact E0]. }
  destruct EX as (L & EL & HL). exists L. split; [exact EL|].
  assert (SS : ops = [] <-> same_schema old new).
  { rewrite diff_eq in D. injection D as D'. rewrite <- D'. apply (diff_empty_iff old new Wo Wn). }
  (* a line comes from an operation *)
  assert (FR : forall x, x <> NoChanges -> In x L -> exists op l, In op ops /\ op_lines op = Ok l /\ In x l).
  { intros x NX HX. destruct HL as [[_ ->]|[_ E]]; [destruct HX as [<-|[]]; now destruct NX|]. exact (ops_lines_from x ops L E HX). }
  assert (TO : forall op l, In op ops -> op_lines op = Ok l -> exists a b, L = a ++ l ++ b).
  { intros op l H El. destruct HL as [[E _]|[_ E]]; [rewrite E in H; destruct H|]. exact (ops_lines_part op ops L l E H El). }
  assert (TI : forall op l x, In op ops -> op_lines op = Ok l -> In x l -> In x L).
  { intros op l x H El Hx. destruct (TO op l H El) as (a & b & ->). apply in_or_app. right. apply in_or_app. now left. }
  assert (INV : forall op l x, op_lines op = Ok l -> In x l ->
     match x with
     | NoChanges => False
     | NewTable n => exists t, (op = AddTable t \/ op = AddTableIfNotExists t) /\ n = t_name t
     | TableRemoved n => op = RemoveTable n
     | NewColumn n c ty => exists y, op = AddColumn n y /\ c = c_name y /\ typeid y = Ok ty
     | ColumnRemoved n c => op = RemoveColumn n c
     | ColumnChanged n c => exists y z, op = ChangeColumn n y z /\ c = c_name y
     | _ => True
     end).
  { intros op l x E H. destruct op as [t|t|t|n|n c|n c|n y z|t]; cbn in E.
    - destruct (column_lines (t_cols t)) as [k| |] eqn:EK; cbn in E; try discriminate. injection E as <-.
      destruct H as [<-|H]; [eauto|]. destruct (column_lines_in _ _ _ EK H) as (? & ? & ->). exact I.
    - destruct (column_lines (t_cols t)) as [k| |] eqn:EK; cbn in E; try discriminate. injection E as <-.
      destruct H as [<-|H]; [eauto|]. destruct (column_lines_in _ _ _ EK H) as (? & ? & ->). exact I.
    - injection E as <-. destruct H.
    - injection E as <-. destruct H as [<-|[]]. reflexivity.
    - destruct (typeid c) eqn:ET; cbn in E; try discriminate. injection E as <-. destruct H as [<-|[]]. eauto.
    - injection E as <-. destruct H as [<-|[]]. reflexivity.
    - destruct (String.eqb_spec (c_name y) (c_name z)); [|discriminate].
      destruct (column_diff_lines y z) as [k| |] eqn:EK; cbn in E; try discriminate. injection E as <-.
      destruct H as [<-|H]; [eauto|]. pose proof (column_diff_detail _ _ _ _ EK H). destruct x; cbn in *; try exact I; contradiction.
    - injection E as <-. destruct H. }
  split.
  - rewrite <- SS. split.
    + intros H. destruct HL as [[E _]|[_ E]]; [exact E|]. destruct (ops_lines_from _ _ _ E H) as (op & l & _ & El & Hl).
      destruct (INV _ _ _ El Hl).
    + intros E. destruct HL as [[_ ->]|[N _]]; [now left|contradiction].
  - intros n. split.
    + intros H. apply FR in H as (op & l & Ho & El & Hl); [|discriminate]. apply ops_just in Ho.
      destruct (INV _ _ _ El Hl) as (t & [->| ->] & ->); cbn in Ho; [|destruct Ho]. destruct Ho as [A B]. split; [exists t; exact A|exact B].
    + intros [[t A] B]. pose proof (proj1 (proj2 Wn n t A)) as <-.
      assert (Ho : In (AddTable t) ops) by (apply ops_just; cbn; auto).
      destruct (op_told _ Ho) as [l El]. eapply TI; [exact Ho|exact El|]. cbn in El.
      destruct (column_lines (t_cols t)); cbn in El; try discriminate. injection El as <-. now left.
  - intros n. split.
    + intros H. apply FR in H as (op & l & Ho & El & Hl); [|discriminate]. apply ops_just in Ho.
      pose proof (INV _ _ _ El Hl) as X. cbn in X. subst op. exact Ho.
    + intros A. assert (Ho : In (RemoveTable n) ops) by (apply ops_just; exact A). eapply TI; [exact Ho|reflexivity|now left].
  - intros n c ty. split.
    + intros H. apply FR in H as (op & l & Ho & El & Hl); [|discriminate]. apply ops_just in Ho.
      destruct (INV _ _ _ El Hl) as (y & -> & -> & ET). destruct Ho as (t & u & A & B & C & N). exists t, u, y. auto 10.
    + intros (t & u & x & A & B & C & <- & ET & N).
      assert (Ho : In (AddColumn n x) ops) by (apply ops_just; cbn; eauto 10).
      eapply TI; [exact Ho|cbn; rewrite ET; reflexivity|now left].
  - intros n c. split.
    + intros H. apply FR in H as (op & l & Ho & El & Hl); [|discriminate]. apply ops_just in Ho.
      pose proof (INV _ _ _ El Hl) as X. cbn in X. subst op. exact Ho.
    + intros A. assert (Ho : In (RemoveColumn n c) ops) by (apply ops_just; exact A). eapply TI; [exact Ho|reflexivity|now left].
  - intros n c. split.
    + intros H. apply FR in H as (op & l & Ho & El & Hl); [|discriminate]. apply ops_just in Ho.
      destruct (INV _ _ _ El Hl) as (y & z & -> & ->). destruct Ho as (t & u & A & B & C & E & EN & NS). exists t, u, y, z. auto 10.
    + intros (t & u & x & y & A & B & C & E & <- & EN & NS).
      assert (Ho : In (ChangeColumn n x y) ops) by (apply ops_just; cbn; exists t, u; auto 10).
      destruct (op_told _ Ho) as [l El]. eapply TI; [exact Ho|exact El|]. cbn in El. rewrite EN, String.eqb_refl in El.
      destruct (column_diff_lines x y); cbn in El; try discriminate. injection El as <-. now left.
  - intros n t u x y A B C E EN NS.
    assert (Ho : In (ChangeColumn n x y) ops) by (apply ops_just; cbn; exists t, u; auto 10).
    destruct (So _ _ _ A C) as [Tx Rx]. destruct (Sn _ _ _ B E) as [Ty Ry].
    destruct (column_told x y Tx Rx Ty Ry) as (l & El & TL & NL).
    destruct (TO (ChangeColumn n x y) (ColumnChanged n (c_name x) :: l) Ho) as (a & b & ->).
    { cbn. rewrite EN, String.eqb_refl, El. reflexivity. }
    exists a, b, l. auto.
  - intros n u A B. pose proof (proj1 (proj2 Wn n u A)) as <-.
    assert (Ho : In (AddTable u) ops) by (apply ops_just; cbn; auto).
    destruct (column_lines_ok (t_cols u)) as (k & EK & F); [intros c Hc; apply (Sn _ _ _ A Hc)|].
    destruct (TO (AddTable u) (NewTable (t_name u) :: k) Ho) as (a & b & ->); [cbn; now rewrite EK|].
    exists a, b, k. auto.
Qed.
End Describe.

Lemma db_there ls n fs d : has_dir fs n -> listing ls -> fs_schema fs n d -> fs_db ls n fs = (Ok d, fs, [fs]).
Proof. intros HD PL H. unfold fs_db, fbind. rewrite (ensure_dir_there n fs HD). unfold fread. rewrite (H ls PL). reflexivity. Qed.
Lemma describe_runs ls n fs to f d : listing ls -> n <> cur -> has_dir fs n -> fs_schema fs n to ->
  omap in_from (read_info n fs) = Ok f ->
  match f with None => d = adb_new | Some p => has_dir fs p /\ fs_schema fs p d end ->
  exists tr, describe_migration ls n fs = (diff_out d to, fs, tr) /\ Forall (eq fs) tr.
Proof.
  intros PL N HD TO FR P. unfold describe_migration. rewrite (proj2 (String.eqb_neq _ _) N). unfold fbind, fread.
  rewrite (proj2 (fs_get_dir fs n n) (conj eq_refl HD)). rewrite (db_there ls n fs to HD PL TO). rewrite FR.
  destruct f as [p|].
  - destruct P as [HP P]. rewrite (proj2 (fs_get_dir fs p p) (conj eq_refl HP)). rewrite (db_there ls p fs d HP PL P).
    unfold flift. eexists. split; [destruct (diff_out d to); reflexivity|]. repeat constructor.
  - subst d. unfold fret, flift. eexists. split; [destruct (diff_out adb_new to); reflexivity|]. repeat constructor.
Qed.
Lemma describe_current_runs ls fs to d : listing ls -> fs_schema fs cur to -> has_dir fs cur ->
  match fs_latest fs with None => d = adb_new | Some p => fs_schema fs p d end ->
  exists tr, describe_migration ls cur fs = (diff_out d to, fs, tr) /\ Forall (eq fs) tr.
Proof.
  intros PL TO HD P. unfold describe_migration. rewrite String.eqb_refl. unfold describe_current, fbind, fread.
  rewrite (db_there ls cur fs to HD PL TO). destruct (fs_latest fs) as [p|] eqn:EL.
  - rewrite (db_there ls p fs d (latest_dir fs p EL) PL P).
    unfold flift. eexists. split; [destruct (diff_out d to); reflexivity|]. repeat constructor.
  - subst d. unfold fret, flift. eexists. split; [destruct (diff_out adb_new to); reflexivity|]. repeat constructor.
Qed.
Lemma describe_unknown ls n fs : n <> cur -> ~ has_dir fs n ->
  describe_migration ls n fs = (Err (Internal "No such migration!"), fs, []).
Proof.
  intros N HD. unfold describe_migration. rewrite (proj2 (String.eqb_neq _ _) N). unfold fbind, fread.
  destruct (fs_get fs n) as [m|] eqn:E; [|reflexivity]. apply fs_get_dir in E as [_ E]. contradiction.
Qed.
