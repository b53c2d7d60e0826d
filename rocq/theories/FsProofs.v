(** Proofs about the store of migrations in files. *)
From Verif Require Import Base SqlVal Adb AdbSpec AdbProofs ResolveSpec ResolveProofs Chain ChainSpec ChainProofs
  Store StoreSpec StoreProofs FsStore FsSpec.
From Coq Require Import Permutation.

Local Arguments sql_name : simpl never.
Local Arguments table_file : simpl never.

(** * File names *)
Lemma las_app a b : list_ascii_of_string (a ++ b)%string = list_ascii_of_string a ++ list_ascii_of_string b.
Proof. induction a as [|c a IH]; cbn; [reflexivity|now rewrite IH]. Qed.
Lemma las_inj a b : list_ascii_of_string a = list_ascii_of_string b -> a = b.
Proof.
  intros H. apply (f_equal string_of_list_ascii) in H. now rewrite !string_of_list_ascii_of_string in H.
Qed.
Lemma str_app_inj_r (a b c : string) : (a ++ c = b ++ c)%string -> a = b.
Proof.
  intros H. apply las_inj. apply (f_equal list_ascii_of_string) in H. rewrite !las_app in H.
  now apply app_inv_tail in H.
Qed.
Ltac suffix H :=
  exfalso; apply (f_equal (fun s => rev (list_ascii_of_string s))) in H;
  unfold table_file, sql_name in H; rewrite ?las_app, ?rev_app_distr, <- ?app_assoc in H; cbn in H; discriminate H.
Lemma table_file_inj a b : table_file a = table_file b -> a = b.
Proof. apply str_app_inj_r. Qed.
Lemma table_file_info t : table_file t <> "info.json".
Proof. intros H. change "info.json"%string with ("info" ++ ".json")%string in H. suffix H. Qed.
Lemma table_file_types t : table_file t <> "types.json".
Proof. intros H. change "types.json"%string with ("types" ++ ".json")%string in H. suffix H. Qed.
Lemma table_file_sql t b d : table_file t <> sql_name b d.
Proof. intros H. suffix H. Qed.
Lemma sql_name_info b d : sql_name b d <> "info.json".
Proof. intros H. change "info.json"%string with ("info" ++ ".json")%string in H. suffix H. Qed.
Lemma sql_name_types b d : sql_name b d <> "types.json".
Proof. intros H. change "types.json"%string with ("types" ++ ".json")%string in H. suffix H. Qed.
Lemma sql_up_down b b' : sql_name b "up" <> sql_name b' "down".
Proof. intros H. suffix H. Qed.
Lemma sql_name_inj b b' d : sql_name b d = sql_name b' d -> b = b'.
Proof. apply str_app_inj_r. Qed.
Lemma table_file_ends t : ends_with (table_file t) ".table" = true.
Proof. apply ends_with_iff. exists t. reflexivity. Qed.
Lemma sql_name_ends b d : ends_with (sql_name b d) ".table" = false.
Proof.
  destruct (ends_with _ _) eqn:E; [|reflexivity]. apply ends_with_iff in E as [p E]. suffix E.
Qed.

(** * Steps that stay inside one directory *)
Definition frame (name : string) (fs fs' : FS) : Prop :=
  fs_ok fs' /\ same_outside name fs fs' /\ fs_state fs' = fs_state fs.
Lemma frame_refl n fs : fs_ok fs -> frame n fs fs.
Proof. intros H. split; [exact H|]. split; [intros d _|]; reflexivity. Qed.
Lemma frame_trans n a b c : frame n a b -> frame n b c -> frame n a c.
Proof.
  intros (O1 & S1 & E1) (O2 & S2 & E2). split; [exact O2|]. split; [|congruence].
  intros d N. now rewrite S2, S1.
Qed.
Definition framed {A} (n : string) (x : FsM A) : Prop :=
  forall fs o fs' tr, fs_ok fs -> x fs = (o, fs', tr) -> frame n fs fs' /\ Forall (frame n fs) tr.

Lemma framed_ret {A} n (a : A) : framed n (fret a).
Proof. intros fs o fs' tr OK [= <- <- <-]. split; [apply frame_refl, OK|constructor]. Qed.
Lemma framed_lift {A} n (a : outcome A) : framed n (flift a).
Proof. intros fs o fs' tr OK [= <- <- <-]. split; [apply frame_refl, OK|constructor]. Qed.
Lemma framed_read {A} n (f : FS -> outcome A) : framed n (fread f).
Proof. intros fs o fs' tr OK [= <- <- <-]. split; [apply frame_refl, OK|constructor]. Qed.
Lemma framed_step n f : (forall fs, fs_ok fs -> frame n fs (f fs)) -> framed n (fstep f).
Proof. intros F fs o fs' tr OK [= <- <- <-]. split; [apply F, OK|constructor; [apply F, OK|constructor]]. Qed.
Lemma framed_bind {A B} n (x : FsM A) (f : A -> FsM B) : framed n x -> (forall a, framed n (f a)) ->
  framed n (fbind x f).
Proof.
  intros X F fs o fs' tr OK H. unfold fbind in H. destruct (x fs) as [[o1 fs1] t1] eqn:E.
  destruct (X _ _ _ _ OK E) as [F1 T1]. destruct o1 as [a| |].
  - destruct (f a fs1) as [[o2 fs2] t2] eqn:E2. injection H as <- <- <-.
    destruct (F a _ _ _ _ (proj1 F1) E2) as [F2 T2]. split; [eapply frame_trans; eauto|].
    apply Forall_app. split; [exact T1|]. eapply Forall_impl; [|exact T2]. intros b. apply frame_trans, F1.
  - injection H as <- <- <-. auto.
  - injection H as <- <- <-. auto.
Qed.
Lemma fbind_ok {A B} (x : FsM A) (f : A -> FsM B) fs b fs2 tr : fbind x f fs = (Ok b, fs2, tr) ->
  exists a fs1 t1 t2, x fs = (Ok a, fs1, t1) /\ f a fs1 = (Ok b, fs2, t2) /\ tr = t1 ++ t2.
Proof.
  unfold fbind. destruct (x fs) as [[o1 fs1] t1]. destruct o1 as [a| |]; try discriminate.
  destruct (f a fs1) as [[o2 fs3] t2] eqn:E. intros [= -> -> <-]. eauto 9.
Qed.

(** The directory [n] exists. *)

Lemma mget_mput_ne {V} (k k' : string) (v : V) m : msorted m -> k' <> k -> mget k' (mput k v m) = mget k' m.
Proof. intros S N. rewrite mget_mput by exact S. now rewrite (proj2 (keqb_neq k' k) N). Qed.
Lemma mget_mput_eq {V} (k : string) (v : V) m : msorted m -> mget k (mput k v m) = Some v.
Proof. intros S. rewrite mget_mput by exact S. now rewrite keqb_refl. Qed.

Lemma put_dir_frame n dir fs : fs_ok fs -> msorted dir ->
  frame n fs {| fs_dirs := mput n dir (fs_dirs fs); fs_state := fs_state fs; fs_gitignore := fs_gitignore fs |}.
Proof.
  intros [S D] Sd. split; [split|split; [|reflexivity]]; cbn [fs_dirs].
  - apply mput_sorted, S.
  - intros d x H. destruct (k_dec d n) as [->|N].
    + rewrite mget_mput_eq in H by exact S. congruence.
    + rewrite mget_mput_ne in H by assumption. eauto.
  - intros d N. now apply mget_mput_ne.
Qed.
Lemma set_file_frame n k f fs : fs_ok fs -> frame n fs (set_file n k f fs).
Proof.
  intros OK. unfold set_file. destruct (mget n (fs_dirs fs)) as [dir|] eqn:E; [|apply frame_refl, OK].
  apply put_dir_frame; [exact OK|]. apply mput_sorted. exact (proj2 OK _ _ E).
Qed.
Lemma del_file_frame n k fs : fs_ok fs -> frame n fs (del_file n k fs).
Proof.
  intros OK. unfold del_file. destruct (mget n (fs_dirs fs)) as [dir|] eqn:E; [|apply frame_refl, OK].
  apply put_dir_frame; [exact OK|]. apply mdel_sorted. exact (proj2 OK _ _ E).
Qed.
Lemma set_file_get n k f fs : fs_ok fs -> has_dir fs n ->
  has_dir (set_file n k f fs) n /\
  forall k', get_file n k' (set_file n k f fs) = if String.eqb k' k then Some f else get_file n k' fs.
Proof.
  intros [S D] [dir E]. unfold set_file, has_dir, get_file. rewrite E. cbn [fs_dirs].
  rewrite mget_mput_eq by exact S. split; [eauto|]. intros k'. specialize (D _ _ E).
  destruct (String.eqb_spec k' k) as [->|N]; [now apply mget_mput_eq|now apply mget_mput_ne].
Qed.
Lemma del_file_get n k fs : fs_ok fs -> has_dir fs n ->
  has_dir (del_file n k fs) n /\
  forall k', get_file n k' (del_file n k fs) = if String.eqb k' k then None else get_file n k' fs.
Proof.
  intros [S D] [dir E]. unfold del_file, has_dir, get_file. rewrite E. cbn [fs_dirs].
  rewrite mget_mput_eq by exact S. split; [eauto|]. intros k'. rewrite mget_mdel.
  destruct (String.eqb_spec k' k) as [->|N]; [now rewrite keqb_refl|now rewrite (proj2 (keqb_neq k' k) N)].
Qed.
Lemma ensure_dir_frame n : framed n (ensure_dir n).
Proof.
  apply framed_step. intros fs OK. destruct (mget n (fs_dirs fs)) eqn:E; [apply frame_refl, OK|].
  apply put_dir_frame; [exact OK|constructor].
Qed.
Lemma ensure_dir_get n fs o fs' tr : fs_ok fs -> ensure_dir n fs = (o, fs', tr) ->
  has_dir fs' n /\ forall k, get_file n k fs' = get_file n k fs.
Proof.
  intros [S D] H. unfold ensure_dir, fstep in H. injection H as <- <- <-.
  unfold has_dir, get_file. destruct (mget n (fs_dirs fs)) as [dir|] eqn:E.
  - rewrite E. eauto.
  - cbn [fs_dirs]. rewrite mget_mput_eq by exact S. split; [eauto|]. intros k. reflexivity.
Qed.
Lemma ensure_dir_there n fs : has_dir fs n -> ensure_dir n fs = (Ok tt, fs, [fs]).
Proof. intros [dir E]. unfold ensure_dir, fstep. now rewrite E. Qed.

Lemma framed_steps n l : (forall f, In f l -> forall fs, fs_ok fs -> frame n fs (f fs)) -> framed n (fsteps l).
Proof.
  induction l as [|f l IH]; intros H; cbn [fsteps]; [apply framed_ret|].
  apply framed_bind; [apply framed_step, H; cbn; auto|]. intros _. apply IH. intros g Hg. apply H. cbn. auto.
Qed.
Lemma fsteps_run l : forall fs, exists tr, fsteps l fs = (Ok tt, fold_left (fun a f => f a) l fs, tr).
Proof.
  induction l as [|f l IH]; intros fs; cbn [fsteps fold_left]; [exists []; reflexivity|].
  unfold fbind, fstep. destruct (IH (f fs)) as [tr E]. rewrite E. eauto.
Qed.
Lemma write_steps_in n k f g : In g (map (set_file n k) (partials f) ++ [set_file n k f]) ->
  exists f', g = set_file n k f'.
Proof.
  intros H. apply in_app_or in H as [H|[<-|[]]]; [|eauto]. apply in_map_iff in H as (f' & <- & _). eauto.
Qed.
Lemma write_file_frame n k f : framed n (write_file n k f).
Proof.
  apply framed_steps. intros g Hg fs OK. apply write_steps_in in Hg as [f' ->]. now apply set_file_frame.
Qed.
Lemma fold_sets n k l : forall fs, fs_ok fs -> has_dir fs n ->
  let fs' := fold_left (fun a f => f a) (map (set_file n k) l) fs in
  fs_ok fs' /\ has_dir fs' n /\ forall k', k' <> k -> get_file n k' fs' = get_file n k' fs.
Proof.
  induction l as [|f l IH]; intros fs OK HD; cbn; [auto|].
  destruct (set_file_get n k f fs OK HD) as [HD1 G1].
  destruct (IH _ (proj1 (set_file_frame n k f fs OK)) HD1) as (O2 & H2 & G2).
  split; [exact O2|]. split; [exact H2|]. intros k' N. rewrite G2, G1 by exact N.
  now rewrite (proj2 (String.eqb_neq _ _) N).
Qed.
Lemma write_file_get n k f fs o fs' tr : fs_ok fs -> has_dir fs n -> write_file n k f fs = (o, fs', tr) ->
  o = Ok tt /\ has_dir fs' n /\
  forall k', get_file n k' fs' = if String.eqb k' k then Some f else get_file n k' fs.
Proof.
  intros OK HD H. unfold write_file in H. destruct (fsteps_run (map (set_file n k) (partials f) ++ [set_file n k f]) fs) as [t E].
  rewrite E in H. injection H as <- <- <-. split; [reflexivity|]. rewrite fold_left_app. cbn [fold_left].
  destruct (fold_sets n k (partials f) fs OK HD) as (O2 & H2 & G2). cbv zeta in *.
  destruct (set_file_get n k f _ O2 H2) as [H3 G3]. split; [exact H3|]. intros k'. rewrite G3.
  destruct (String.eqb_spec k' k) as [->|N]; [reflexivity|]. now apply G2.
Qed.
Lemma write_contents_frame n k f : framed n (write_contents n k f).
Proof.
  apply framed_bind; [apply ensure_dir_frame|]. intros _. apply framed_bind; [apply framed_lift|].
  intros f'. apply write_file_frame.
Qed.
Lemma write_contents_get n k f fs u fs' tr : fs_ok fs -> write_contents n k f fs = (Ok u, fs', tr) ->
  exists f', nl_terminated f = Ok f' /\ has_dir fs' n /\
  forall k', get_file n k' fs' = if String.eqb k' k then Some f' else get_file n k' fs.
Proof.
  intros OK H. apply fbind_ok in H as (a & fs1 & t1 & t2 & E1 & E2 & _).
  destruct (ensure_dir_frame n _ _ _ _ OK E1) as [(O1 & _) _].
  destruct (ensure_dir_get n _ _ _ _ OK E1) as [H1 G1].
  apply fbind_ok in E2 as (f' & fs2 & t3 & t4 & E3 & E4 & _). unfold flift in E3. injection E3 as E3 <- <-.
  exists f'. split; [exact E3|]. destruct (write_file_get _ _ _ _ _ _ _ O1 H1 E4) as (_ & H2 & G2).
  split; [exact H2|]. intros k'. rewrite G2. destruct (String.eqb k' k); [reflexivity|apply G1].
Qed.

(** * Calls on a new migration *)
Ltac framed_tac :=
  repeat (cbv zeta; first [apply write_contents_frame|apply ensure_dir_frame|apply framed_read|apply framed_lift|apply framed_ret
                          |apply framed_bind; [|intros]]).
Lemma fs_call_frame n c : framed n (fs_call n c).
Proof.
  destruct c as [t|t f|b u d|o]; cbn [fs_call].
  - apply write_contents_frame.
  - unfold fs_add_unmodified, write_info. framed_tac.
  - unfold fs_add_sql, write_info. framed_tac. destruct (existsb _ _); framed_tac.
  - unfold fs_set_from, write_info. framed_tac.
Qed.
Lemma fs_calls_frame n l : framed n (fs_calls n l).
Proof.
  induction l as [|c l IH]; cbn [fs_calls]; [apply framed_ret|].
  apply framed_bind; [apply framed_lift|]. intros x. apply framed_bind; [apply fs_call_frame|]. intros _. exact IH.
Qed.

(** * What a directory built by calls contains *)
Record Built := {
  bl_tables : list ATable;
  bl_bases : smap string string;
  bl_sqls : list (string * (string * string));
  bl_from : option string }.
Definition bl_files (b : Built) : list (string * file) :=
  map (fun t => (table_file (t_name t), FTable t)) (bl_tables b) ++
  flat_map (fun p => [(sql_name (fst p) "up", FSql (with_newline (fst (snd p))));
                      (sql_name (fst p) "down", FSql (with_newline (snd (snd p))))]) (bl_sqls b).
Definition built (n : string) (b : Built) (fs : FS) : Prop :=
  read_info n fs = Ok {| in_from := bl_from b; in_bases := bl_bases b; in_backends := map fst (bl_sqls b) |} /\
  forall k f, k <> "info.json"%string -> (get_file n k fs = Some f <-> In (k, f) (bl_files b)).

Lemma bl_files_key b k f : In (k, f) (bl_files b) ->
  (exists t, In t (bl_tables b) /\ k = table_file (t_name t) /\ f = FTable t) \/
  (exists x u d, In (x, (u, d)) (bl_sqls b) /\
     ((k = sql_name x "up" /\ f = FSql (with_newline u)) \/ (k = sql_name x "down" /\ f = FSql (with_newline d)))).
Proof.
  unfold bl_files. intros H. apply in_app_or in H as [H|H].
  - apply in_map_iff in H as (t & [= <- <-] & Ht). left. eauto.
  - apply in_flat_map in H as ([x [u d]] & Hp & H). right. exists x, u, d. split; [exact Hp|].
    cbn in H. destruct H as [[= <- <-]|[[= <- <-]|[]]]; auto.
Qed.
Lemma read_info_same n fs fs' : get_file n "info.json" fs' = get_file n "info.json" fs ->
  read_info n fs' = read_info n fs.
Proof. intros H. unfold read_info. now rewrite H. Qed.
Lemma read_info_set n fs i : get_file n "info.json" fs = Some (FInfo i) -> read_info n fs = Ok i.
Proof. intros H. unfold read_info. now rewrite H. Qed.

Lemma built_modified n b t fs u fs' tr : fs_ok fs -> built n b fs ->
  ~ In (t_name t) (map t_name (bl_tables b)) -> fs_add_modified n t fs = (Ok u, fs', tr) ->
  has_dir fs' n /\
  built n {| bl_tables := bl_tables b ++ [t]; bl_bases := bl_bases b; bl_sqls := bl_sqls b; bl_from := bl_from b |} fs'.
Proof.
  intros OK [I F] N H. apply write_contents_get in H as (f' & Ef & HD & G); [|exact OK].
  cbn in Ef. injection Ef as <-. split; [exact HD|]. split.
  - etransitivity; [|exact I]. apply read_info_same. rewrite G.
    rewrite (proj2 (String.eqb_neq _ _)); [reflexivity|]. intros E. symmetry in E. now apply table_file_info in E.
  - intros k f Nk. rewrite G. unfold bl_files. cbn [bl_tables bl_sqls]. rewrite map_app, <- app_assoc.
    destruct (String.eqb_spec k (table_file (t_name t))) as [->|Nt].
    + split.
      * intros [= <-]. apply in_or_app. right. cbn. auto.
      * intros Hin. apply in_app_or in Hin as [Hin|[[= <-]|Hin]]; [| reflexivity |].
        -- exfalso. apply N. apply in_map_iff in Hin as (t' & [= E _] & Ht'). apply table_file_inj in E.
           rewrite <- E. apply in_map, Ht'.
        -- exfalso. apply in_flat_map in Hin as ([x [v d]] & Hp & Hin). cbn in Hin.
           destruct Hin as [[= E _]|[[= E _]|[]]]; symmetry in E; now apply table_file_sql in E.
    + rewrite F by exact Nk. unfold bl_files. rewrite !in_app_iff. cbn. split; [tauto|].
      intros [H|[[[= E _]|[]]|H]]; auto. congruence.
Qed.
Lemma built_info n b b' fs u fs' tr i : fs_ok fs -> built n b fs -> bl_tables b' = bl_tables b ->
  bl_sqls b' = bl_sqls b -> i = {| in_from := bl_from b'; in_bases := bl_bases b'; in_backends := map fst (bl_sqls b') |} ->
  write_info n i fs = (Ok u, fs', tr) -> has_dir fs' n /\ built n b' fs'.
Proof.
  intros OK [I F] ET ES -> H. apply write_contents_get in H as (f' & Ef & HD & G); [|exact OK].
  cbn in Ef. injection Ef as <-. split; [exact HD|]. split.
  - apply read_info_set. rewrite G. reflexivity.
  - intros k f Nk. rewrite G, (proj2 (String.eqb_neq _ _) Nk), F by exact Nk.
    unfold bl_files. now rewrite ET, ES.
Qed.
Lemma fread_ok {A} (f : FS -> outcome A) fs a fs' t : fread f fs = (Ok a, fs', t) -> f fs = Ok a /\ fs' = fs /\ t = [].
Proof. unfold fread. intros [= -> <- <-]. auto. Qed.
Lemma built_unmodified n b t f fs u fs' tr : fs_ok fs -> built n b fs ->
  fs_add_unmodified n t f fs = (Ok u, fs', tr) ->
  exists ms fi, all_migrations (fs_coll fs) = Ok ms /\ In f ms /\ read_info f fs = Ok fi /\
  has_dir fs' n /\
  built n {| bl_tables := bl_tables b;
             bl_bases := mput (t_name t) (match mget (t_name t) (in_bases fi) with Some x => x | None => f end) (bl_bases b);
             bl_sqls := bl_sqls b; bl_from := bl_from b |} fs'.
Proof.
  intros OK B H. unfold fs_add_unmodified in H.
  apply fbind_ok in H as (ms & fs1 & t1 & t2 & E1 & H & _). apply fread_ok in E1 as (E1 & -> & ->).
  apply fbind_ok in H as (fi & fs1 & t3 & t4 & E2 & H & _). apply fread_ok in E2 as (E2 & -> & ->).
  apply fbind_ok in H as (i & fs1 & t5 & t6 & E3 & H & _). apply fread_ok in E3 as (E3 & -> & ->).
  destruct (find _ ms) as [m|] eqn:Ef; [|discriminate]. apply find_some in Ef as [Hm Em].
  apply String.eqb_eq in Em. subst m. exists ms, fi. split; [exact E1|]. split; [exact Hm|]. split; [exact E2|].
  rewrite (proj1 B) in E3. injection E3 as <-. cbn in H.
  eapply built_info; [exact OK|exact B| | | |exact H]; reflexivity.
Qed.
Lemma nl_sql s f : nl_terminated (FSql s) = Ok f -> f = FSql (with_newline s).
Proof. cbn. destruct (String.eqb s ""); [discriminate|]. intros [= <-]. reflexivity. Qed.
Lemma built_sql n b x up down fs u fs' tr : fs_ok fs -> built n b fs ->
  ~ In x (map fst (bl_sqls b)) -> fs_add_sql n x up down fs = (Ok u, fs', tr) ->
  has_dir fs' n /\
  built n {| bl_tables := bl_tables b; bl_bases := bl_bases b;
             bl_sqls := bl_sqls b ++ [(x, (up, down))]; bl_from := bl_from b |} fs'.
Proof.
  intros OK [I F] N H. unfold fs_add_sql in H.
  apply fbind_ok in H as (a1 & fs1 & t1 & t2 & E1 & H & _).
  destruct (write_contents_frame _ _ _ _ _ _ _ OK E1) as [(O1 & _) _].
  apply write_contents_get in E1 as (f1 & Ef1 & _ & G1); [|exact OK]. apply nl_sql in Ef1. subst f1.
  apply fbind_ok in H as (a2 & fs2 & t3 & t4 & E2 & H & _).
  destruct (write_contents_frame _ _ _ _ _ _ _ O1 E2) as [(O2 & _) _].
  apply write_contents_get in E2 as (f2 & Ef2 & _ & G2); [|exact O1]. apply nl_sql in Ef2. subst f2.
  apply fbind_ok in H as (i & fs3 & t5 & t6 & E3 & H & _). apply fread_ok in E3 as (E3 & -> & ->).
  assert (I2 : read_info n fs2 = read_info n fs).
  { apply read_info_same. rewrite G2, G1.
    rewrite !(proj2 (String.eqb_neq "info.json" (sql_name x _))); [reflexivity|..];
      intros E; symmetry in E; now apply sql_name_info in E. }
  rewrite I2, I in E3. injection E3 as <-. cbn [in_backends in_from in_bases] in H.
  destruct (existsb (String.eqb x) (map fst (bl_sqls b))) eqn:Ex.
  { exfalso. apply N. now apply existsb_eqb_In. }
  apply write_contents_get in H as (f3 & Ef3 & HD & G3); [|exact O2]. cbn in Ef3. injection Ef3 as <-.
  split; [exact HD|]. split.
  - apply read_info_set. rewrite G3. cbn. now rewrite map_app.
  - intros k f Nk. rewrite G3, (proj2 (String.eqb_neq _ _) Nk), G2, G1.
    unfold bl_files. cbn [bl_tables bl_sqls]. rewrite flat_map_app, app_assoc. cbn [flat_map fst snd app].
    rewrite in_app_iff. fold (bl_files b). cbn [In].
    assert (X : forall dir, In (sql_name x dir, f) (bl_files b) -> (dir = "up" \/ dir = "down")%string -> False).
    { intros dir Hin Hd. apply bl_files_key in Hin as [(t & _ & E & _)|(y & v & w & Hp & [[E _]|[E _]])].
      - symmetry in E. now apply table_file_sql in E.
      - destruct Hd as [-> | ->]; [|symmetry in E; now apply sql_up_down in E].
        apply sql_name_inj in E. subst y. apply N. apply in_map_iff. eexists. split; [|exact Hp]. reflexivity.
      - destruct Hd as [-> | ->]; [now apply sql_up_down in E|].
        apply sql_name_inj in E. subst y. apply N. apply in_map_iff. eexists. split; [|exact Hp]. reflexivity. }
    destruct (String.eqb_spec k (sql_name x "down")) as [->|Nd].
    + split; [intros [= <-]; auto|]. intros [H1|[[= E _]|[[= <-]|[]]]].
      * exfalso. eapply X; eauto.
      * now apply sql_up_down in E.
      * reflexivity.
    + destruct (String.eqb_spec k (sql_name x "up")) as [->|Nu].
      * split; [intros [= <-]; auto|]. intros [H1|[[= <-]|[[= E _]|[]]]].
        -- exfalso. eapply X; eauto.
        -- reflexivity.
        -- symmetry in E. now apply sql_up_down in E.
      * rewrite F by exact Nk. split; [auto|]. intros [H1|[[= E _]|[[= E _]|[]]]]; [exact H1|congruence|congruence].
Qed.
Lemma built_from n b o fs u fs' tr : fs_ok fs -> built n b fs -> fs_set_from n o fs = (Ok u, fs', tr) ->
  has_dir fs' n /\
  built n {| bl_tables := bl_tables b; bl_bases := bl_bases b; bl_sqls := bl_sqls b; bl_from := o |} fs'.
Proof.
  intros OK B H. unfold fs_set_from in H.
  apply fbind_ok in H as (i & fs1 & t1 & t2 & E1 & H & _). apply fread_ok in E1 as (E1 & -> & ->).
  rewrite (proj1 B) in E1. injection E1 as <-. cbn in H.
  eapply built_info; [exact OK|exact B| | | |exact H]; reflexivity.
Qed.

(** * The chain on disk *)
Lemma fs_get_dir fs n m : fs_get fs n = Some m <-> m = n /\ has_dir fs n.
Proof.
  unfold fs_get, has_dir. destruct (mget n (fs_dirs fs)) as [d|]; split.
  - intros [= <-]. eauto.
  - intros [-> _]. reflexivity.
  - discriminate.
  - intros [_ [d E]]. discriminate.
Qed.
Lemma fs_coherent fs : coherent (fs_coll fs).
Proof.
  split; [|split]; cbn.
  - intros n m H. apply fs_get_dir in H as [-> _]. reflexivity.
  - intros m H. unfold fs_latest in H. destruct (get_state fs) as [[n|]| |]; try discriminate.
    apply fs_get_dir in H as [-> H]. now apply fs_get_dir.
  - exists (mkeys (fs_dirs fs)). split; [unfold mkeys; now rewrite map_length|].
    intros n m H. apply fs_get_dir in H as [_ H]. now apply mget_keys.
Qed.
Lemma chain_dirs fs m l : has_dir fs m -> chain_to (fs_coll fs) m l -> forall x, In x l -> has_dir fs x.
Proof.
  intros D. induction 1 as [m F|m p l (n & E & G) C IH]; intros x Hx.
  - destruct Hx as [<-|[]]. exact D.
  - cbn in G. apply fs_get_dir in G as [-> G].
    apply in_app_or in Hx as [Hx|[<-|[]]]; [apply IH; assumption|exact D].
Qed.
Lemma latest_dir fs m : fs_latest fs = Some m -> has_dir fs m.
Proof.
  unfold fs_latest. destruct (get_state fs) as [[n|]| |]; try discriminate. intros H.
  apply fs_get_dir in H as [-> H]. exact H.
Qed.
Lemma dir_same name fs fs' n : same_outside name fs fs' -> n <> name -> (has_dir fs' n <-> has_dir fs n).
Proof. intros S N. unfold has_dir. now rewrite (S n N). Qed.
Lemma get_file_same name fs fs' n k : same_outside name fs fs' -> n <> name -> get_file n k fs' = get_file n k fs.
Proof. intros S N. unfold get_file. now rewrite (S n N). Qed.
Lemma chain_to_same name fs fs' m l : same_outside name fs fs' -> ~ has_dir fs name -> has_dir fs m ->
  chain_to (fs_coll fs) m l -> chain_to (fs_coll fs') m l.
Proof.
  intros S Fr D C. assert (X : forall x, has_dir fs x -> read_info x fs' = read_info x fs /\ has_dir fs' x).
  { intros x Hx. assert (N : x <> name) by (intros ->; contradiction). split.
    - apply read_info_same. eapply get_file_same; eauto.
    - now apply (dir_same name fs fs'). }
  induction C as [m F|m p l (n & E & G) C IH].
  - constructor. unfold is_first in *. cbn in *. now rewrite (proj1 (X m D)).
  - cbn in G. apply fs_get_dir in G as [-> G]. econstructor; [|apply IH, G].
    exists n. cbn in E |- *. rewrite (proj1 (X m D)). split; [exact E|]. apply fs_get_dir. split; [reflexivity|].
    apply X, G.
Qed.
Lemma latest_same name fs fs' : same_outside name fs fs' -> ~ has_dir fs name ->
  fs_state fs' = fs_state fs -> get_state fs = Ok (fs_latest fs) -> fs_latest fs' = fs_latest fs.
Proof.
  intros S Fr E G. pose proof (latest_dir fs) as LD. unfold fs_latest at 1. unfold get_state at 1.
  rewrite E. fold (get_state fs). rewrite G. destruct (fs_latest fs) as [n|]; [|reflexivity].
  apply fs_get_dir. split; [reflexivity|]. specialize (LD n eq_refl).
  apply (dir_same name fs fs'); auto. intros ->. contradiction.
Qed.
Lemma chain_same name fs fs' l : same_outside name fs fs' -> ~ has_dir fs name ->
  fs_state fs' = fs_state fs -> get_state fs = Ok (fs_latest fs) ->
  chain (fs_coll fs) l -> chain (fs_coll fs') l.
Proof.
  intros S Fr E G C. unfold chain in *. cbn [cl_latest fs_coll] in *. rewrite (latest_same name fs fs') by assumption.
  destruct (fs_latest fs) as [m|] eqn:El; [|exact C].
  apply (chain_to_same name fs fs'); auto. now apply latest_dir.
Qed.

(** * A stored schema *)
Lemma stored_same name fs fs' n d : same_outside name fs fs' -> ~ has_dir fs name ->
  stored fs n d -> stored fs' n d.
Proof.
  intros S Fr [D W T ST NT F (i & I & SB & B & C)].
  assert (X : forall m k f, get_file m k fs = Some f -> get_file m k fs' = Some f).
  { intros m k f H. rewrite (get_file_same name fs fs'); auto. intros ->. apply Fr.
    unfold get_file in H. unfold has_dir. destruct (mget name (fs_dirs fs)); [eauto|discriminate]. }
  assert (N : n <> name) by (intros ->; contradiction).
  assert (G : forall k, get_file n k fs' = get_file n k fs) by (intros; eapply get_file_same; eauto).
  split; auto.
  - now apply (dir_same name fs fs').
  - now rewrite G.
  - intros k f. rewrite G. apply F.
  - exists i. split; [rewrite <- I; apply read_info_same, G|]. split; [exact SB|]. split.
    + intros x b Hx. rewrite G. destruct (B x b Hx) as (A1 & t & A2 & A3). split; [exact A1|]. eauto.
    + intros x t Hx. rewrite G. exact (C x t Hx).
Qed.

Lemma ofold_tables {A} (rd : A -> outcome ATable) l : forall db, (forall x, In x l -> exists t, rd x = Ok t) ->
  exists ts, Forall2 (fun x t => rd x = Ok t) l ts /\
    ofold (fun db x => omap (replace_table db) (rd x)) l db
    = Ok {| a_tables := fold_left (fun s t => mput (t_name t) t s) ts (a_tables db); a_types := a_types db |}.
Proof.
  induction l as [|x l IH]; intros db H; cbn.
  - exists []. split; [constructor|]. destruct db; reflexivity.
  - destruct (H x (or_introl eq_refl)) as [t E]. rewrite E. cbn.
    destruct (IH (replace_table db t)) as (ts & F & E2); [intros; apply H; cbn; auto|].
    exists (t :: ts). split; [constructor; assumption|]. rewrite E2. reflexivity.
Qed.
Lemma by_name_In n l t : by_name n l = Some t -> In t l /\ t_name t = n.
Proof. unfold by_name. intros H. apply find_some in H as [H E]. apply String.eqb_eq in E. auto. Qed.
Lemma by_name_None n l : by_name n l = None -> forall t, In t l -> t_name t <> n.
Proof.
  unfold by_name. intros H t Ht E. pose proof (find_none _ _ H t Ht) as X. cbn in X.
  apply String.eqb_neq in X. contradiction.
Qed.
Lemma Forall2_In_l {A B} (P : A -> B -> Prop) l l' : Forall2 P l l' -> forall y, In y l' -> exists x, In x l /\ P x y.
Proof. induction 1; intros z Hz; [destruct Hz|]. destruct Hz as [<-|Hz]; [eauto using in_eq|]. destruct (IHForall2 z Hz) as (a & Ha & Hp). eauto using in_cons. Qed.
Lemma Forall2_In_r {A B} (P : A -> B -> Prop) l l' : Forall2 P l l' -> forall x, In x l -> exists y, In y l' /\ P x y.
Proof. induction 1; intros z Hz; [destruct Hz|]. destruct Hz as [<-|Hz]; [eauto using in_eq|]. destruct (IHForall2 z Hz) as (a & Ha & Hp). eauto using in_cons. Qed.
Lemma ofold_skip {A B} (f : B -> A -> outcome B) (p : A -> bool) l : forall b,
  (forall x b, In x l -> p x = false -> f b x = Ok b) ->
  ofold f l b = ofold f (filter p l) b.
Proof.
  induction l as [|x l IH]; intros b H; cbn; [reflexivity|]. destruct (p x) eqn:E; cbn.
  - destruct (f b x); cbn; [|reflexivity..]. apply IH. intros; apply H; cbn; auto.
  - rewrite H by (cbn; auto). cbn. apply IH. intros; apply H; cbn; auto.
Qed.
Lemma ofold_ext {A B} (f g : B -> A -> outcome B) l : (forall x b, In x l -> f b x = g b x) -> forall b,
  ofold f l b = ofold g l b.
Proof.
  intros H. induction l as [|x l IH]; intros b; cbn; [reflexivity|]. rewrite (H x b) by (cbn; auto).
  destruct (g b x); cbn; [|reflexivity..]. apply IH. intros; apply H; cbn; auto.
Qed.
Lemma dir_files_In n fs k : In k (dir_files n fs) <-> exists f, get_file n k fs = Some f.
Proof.
  unfold dir_files, get_file. destruct (mget n (fs_dirs fs)) as [dir|].
  - apply mget_keys.
  - split; [intros []|intros [f H]; discriminate].
Qed.
Lemma NoDup_names {A} (f : A -> string) (P : A -> ATable -> Prop) l ts : NoDup (map f l) -> Forall2 P l ts ->
  (forall x t, In x l -> P x t -> t_name t = f x) -> NoDup (map t_name ts).
Proof.
  intros ND F H. assert (E : map t_name ts = map f l); [|now rewrite E].
  induction F as [|x t l ts E F IH]; cbn; [reflexivity|]. inversion ND; subst. f_equal.
  - apply H; cbn; auto.
  - apply IH; auto. intros; apply H; cbn; auto.
Qed.

Lemma stored_schema fs n d : fs_ok fs -> stored fs n d -> fs_schema fs n d.
Proof.
  intros OK [D W T ST NT F (i & I & SB & B & C)] ls PL. unfold fs_read_db. rewrite I. cbn [obind].
  (* base tables *)
  destruct (ofold_tables (fun p => read_table (snd p) (table_file (fst p)) fs) (in_bases i) adb_new) as (ts1 & F1 & E1).
  { intros [x b] Hp. apply In_mget in Hp; [|exact SB]. destruct (B x b Hp) as (_ & t & _ & G). exists t.
    cbn. unfold read_table. now rewrite G. }
  cbn [adb_new a_tables a_types] in E1. rewrite E1. cbn [obind]. clear E1.
  assert (P1 : forall p t, In p (in_bases i) -> read_table (snd p) (table_file (fst p)) fs = Ok t ->
             In (fst p, t) (a_tables d) /\ t_name t = fst p).
  { intros [x b] t Hp Hr. apply In_mget in Hp; [|exact SB]. destruct (B x b Hp) as (_ & t' & Ht & G).
    cbn in *. unfold read_table in Hr. rewrite G in Hr. injection Hr as <-.
    split; [exact Ht|]. exact (proj1 (proj2 W x t' Ht)). }
  assert (ND1 : NoDup (map t_name ts1)).
  { eapply (NoDup_names fst); [|exact F1|]; [apply sorted_NoDup, SB|]. intros p t Hp Hr. now apply P1. }
  (* own tables *)
  set (fl := ls (dir_files n fs)).
  assert (Hfl : forall k, In k fl <-> exists f, get_file n k fs = Some f).
  { intros k. unfold fl. rewrite <- dir_files_In. split; apply Permutation_in; [apply PL|apply Permutation_sym, PL]. }
  assert (NDf : NoDup fl).
  { unfold fl. eapply Permutation_NoDup; [apply Permutation_sym, PL|]. unfold dir_files. destruct D as [dir Ed].
    rewrite Ed. apply sorted_NoDup. exact (proj2 OK _ _ Ed). }
  rewrite (ofold_skip _ (fun k => ends_with k ".table")).
  2: { intros k db Hk E. unfold fs_entry. rewrite E. destruct (String.eqb_spec k "types.json") as [->|_]; [|reflexivity].
       apply Hfl in Hk as [f Hk]. congruence. }
  rewrite (ofold_ext _ (fun db k => omap (replace_table db) (read_table n k fs))).
  2: { intros k db Hk. apply filter_In in Hk as [_ E]. unfold fs_entry. now rewrite E. }
  assert (P2 : forall k, In k (filter (fun k => ends_with k ".table") fl) ->
             exists t, k = table_file (t_name t) /\ read_table n k fs = Ok t /\ In (t_name t, t) (a_tables d)).
  { intros k Hk. apply filter_In in Hk as [Hk E]. apply Hfl in Hk as [f Hk].
    destruct (F k f Hk E) as (t & -> & -> & Ht). exists t. split; [reflexivity|]. split; [|exact Ht].
    unfold read_table. now rewrite Hk. }
  edestruct (ofold_tables (fun k => read_table n k fs)) as (ts2 & F2 & E2); [|rewrite E2; clear E2].
  { intros k Hk. destruct (P2 k Hk) as (t & _ & E & _). eauto. }
  cbn [obind a_tables a_types].
  assert (ND2 : NoDup (map t_name ts2)).
  { assert (ND : NoDup (map table_file (map t_name ts2))).
    { assert (E : map table_file (map t_name ts2) = filter (fun k => ends_with k ".table") fl).
      { clear - F2 P2. induction F2 as [|k t l ts E F2 IH]; cbn; [reflexivity|]. f_equal; [|apply IH; intros; apply P2; cbn; auto].
        destruct (P2 k (or_introl eq_refl)) as (t' & -> & E' & _). congruence. }
      rewrite E. apply NoDup_filter, NDf. }
    apply NoDup_map_inv in ND. exact ND. }
  destruct (mput_mget_fold ts1 [] msorted_nil ND1) as [S1 G1].
  destruct (mput_mget_fold ts2 _ S1 ND2) as [S2 G2].
  assert (EQ : fold_left (fun s t => mput (t_name t) t s) ts2 (fold_left (fun s t => mput (t_name t) t s) ts1 []) = a_tables d).
  { apply mkeys_ext; [exact S2|exact (proj1 W)|]. intros x. rewrite G2, G1. cbn [mget].
    destruct (by_name x ts2) as [t|] eqn:N2.
    - apply by_name_In in N2 as [Ht <-]. destruct (Forall2_In_l _ _ _ F2 t Ht) as (k & Hk & Rk).
      destruct (P2 k Hk) as (t' & _ & E' & Hin). rewrite E' in Rk. injection Rk as <-.
      symmetry. apply In_mget; [exact (proj1 W)|exact Hin].
    - destruct (by_name x ts1) as [t|] eqn:N1.
      + apply by_name_In in N1 as [Ht <-]. destruct (Forall2_In_l _ _ _ F1 t Ht) as (p & Hp & Rp).
        destruct (P1 p t Hp Rp) as [Hin En]. symmetry. rewrite En. apply In_mget; [exact (proj1 W)|exact Hin].
      + symmetry. destruct (mget x (a_tables d)) as [t|] eqn:Ed; [exfalso|reflexivity].
        apply mget_In in Ed. destruct (proj2 W x t Ed) as [En _]. destruct (C x t Ed) as [Gf|[b Gb]].
        * assert (Hk : In (table_file x) (filter (fun k => ends_with k ".table") fl)).
          { apply filter_In. split; [apply Hfl; eauto|apply table_file_ends]. }
          destruct (Forall2_In_r _ _ _ F2 _ Hk) as (t' & Ht' & Rt'). unfold read_table in Rt'. rewrite Gf in Rt'.
          injection Rt' as <-. exact (by_name_None _ _ N2 t Ht' En).
        * apply mget_In in Gb. destruct (Forall2_In_r _ _ _ F1 _ Gb) as (t' & Ht' & Rt').
          destruct (P1 _ _ Gb Rt') as [_ En']. exact (by_name_None _ _ N1 t' Ht' En'). }
  rewrite EQ. destruct d as [dt dx]. cbn [a_tables a_types] in *. subst dx.
  rewrite resolve_settled_id; [reflexivity|exact (proj1 W)|reflexivity|exact ST].
Qed.

(** * Creating a migration *)
Section Create.
  Variables (name : string) (modified : ATable -> bool) (from : option string) (fi : Info) (fs0 : FS).
  Hypothesis Other : from <> Some name.
  Hypothesis From : forall f, from = Some f -> read_info f fs0 = Ok fi /\ has_dir fs0 f.
  Definition base (x : string) : string :=
    match mget x (in_bases fi) with
    | Some b => b
    | None => match from with Some f => f | None => "" end
    end.
  Definition tcall (t : ATable) : outcome Call :=
    if modified t then Ok (CModified t)
    else match from with
         | None => Err (MigrationError "unmodified requires a from")
         | Some f => Ok (CUnmodified t f)
         end.
  Lemma calls_tables ts : forall done b fs u fs' tr rest,
    frame name fs0 fs -> built name b fs ->
    NoDup (map t_name (done ++ ts)) -> bl_tables b = filter modified done ->
    msorted (bl_bases b) ->
    (forall x, mget x (bl_bases b) = if existsb (fun t => String.eqb (t_name t) x && negb (modified t)) done
                                     then Some (base x) else None) ->
    fs_calls name (map tcall ts ++ rest) fs = (Ok u, fs', tr) ->
    exists b1 fs1 t1, frame name fs0 fs1 /\ built name b1 fs1 /\ fs_calls name rest fs1 = (Ok u, fs', t1) /\
      bl_tables b1 = filter modified (done ++ ts) /\ bl_sqls b1 = bl_sqls b /\ bl_from b1 = bl_from b /\
      msorted (bl_bases b1) /\
      (forall x, mget x (bl_bases b1) = if existsb (fun t => String.eqb (t_name t) x && negb (modified t)) (done ++ ts)
                                        then Some (base x) else None) /\
      (from = None -> forall t, In t ts -> modified t = true).
  Proof.
    induction ts as [|t ts IH]; intros done b fs u fs' tr rest FR B ND ET SB GB H.
    - cbn in H. exists b, fs, tr. rewrite app_nil_r. repeat (split; [assumption || reflexivity|]).
      intros _ t [].
    - cbn [map app fs_calls] in H. apply fbind_ok in H as (c & fs1 & t1 & t2 & E1 & H & _).
      unfold flift in E1. injection E1 as E1 <- <-.
      apply fbind_ok in H as (v & fs1 & t3 & t4 & E2 & H & _).
      destruct (fs_call_frame name c _ _ _ _ (proj1 FR) E2) as [FR1 _].
      assert (FR2 : frame name fs0 fs1) by (eapply frame_trans; eauto).
      assert (ND' : NoDup (map t_name ((done ++ [t]) ++ ts))) by (now rewrite <- app_assoc).
      assert (Nt : ~ In (t_name t) (map t_name done)).
      { rewrite map_app in ND. cbn in ND. apply NoDup_remove_2 in ND. intros Hin. apply ND, in_or_app. auto. }
      unfold tcall in E1. destruct (modified t) eqn:Em.
      + injection E1 as <-. cbn [fs_call] in E2.
        apply (built_modified _ b) in E2 as (_ & B1); [|exact (proj1 FR)|exact B|].
        2: { rewrite ET. intros Hin. apply Nt. apply in_map_iff in Hin as (t' & <- & Ht').
             apply filter_In in Ht' as [Ht' _]. now apply in_map. }
        destruct (IH (done ++ [t]) _ _ u fs' t4 rest FR2 B1 ND') as (b1 & fs2 & t5 & R); [|exact SB| |exact H|].
        * cbn. rewrite filter_app, ET. cbn. now rewrite Em.
        * cbn. intros x. rewrite GB, existsb_app. cbn. rewrite Em. cbn. now rewrite andb_false_r, !orb_false_r.
        * rewrite <- app_assoc in R. destruct R as (R1 & R2 & R3 & R4 & R5 & R6 & R7 & R8 & R9).
          exists b1, fs2, t5. repeat (split; [assumption|]). intros Hf t' [<-|Ht']; [exact Em|auto].
      + destruct from as [f|] eqn:Ef; [|discriminate]. injection E1 as <-. cbn [fs_call] in E2.
        apply (built_unmodified _ b) in E2 as (ms & fi' & Ems & Hms & Efi & _ & B1); [|exact (proj1 FR)|exact B].
        destruct (From f eq_refl) as [Efi0 Hf].
        assert (Efi' : fi' = fi).
        { rewrite (read_info_same f fs0 fs) in Efi; [congruence|]. apply (get_file_same name); [apply FR|].
          intros ->. now apply Other. }
        subst fi'.
        destruct (IH (done ++ [t]) _ _ u fs' t4 rest FR2 B1 ND') as (b1 & fs2 & t5 & R); [| | |exact H|].
        * cbn. rewrite filter_app, ET. cbn. now rewrite Em, app_nil_r.
        * cbn [bl_bases]. apply mput_sorted, SB.
        * cbn [bl_bases]. intros x. rewrite mget_mput by exact SB. rewrite existsb_app. cbn. rewrite Em. cbn.
          destruct (keqb_spec x (t_name t)) as [->|N].
          -- rewrite String.eqb_refl. cbn. rewrite orb_true_r. unfold base. rewrite Ef. reflexivity.
          -- rewrite (proj2 (String.eqb_neq (t_name t) x)) by congruence. cbn. rewrite !orb_false_r. apply GB.
        * rewrite <- app_assoc in R. destruct R as (R1 & R2 & R3 & R4 & R5 & R6 & R7 & R8 & R9).
          exists b1, fs2, t5. repeat (split; [assumption|]). discriminate.
  Qed.
  Variable mk : Backend -> outcome Call.
  Hypothesis Mk : forall b x, mk b = Ok x -> exists u d, x = CSql (b_name b) u d.
  Lemma calls_sqls bs : forall b fs u fs' tr rest,
    frame name fs0 fs -> built name b fs -> NoDup (map fst (bl_sqls b) ++ map b_name bs) ->
    fs_calls name (map mk bs ++ rest) fs = (Ok u, fs', tr) ->
    exists b1 fs1 t1 sqls, frame name fs0 fs1 /\ built name b1 fs1 /\ fs_calls name rest fs1 = (Ok u, fs', t1) /\
      bl_tables b1 = bl_tables b /\ bl_bases b1 = bl_bases b /\ bl_from b1 = bl_from b /\
      bl_sqls b1 = bl_sqls b ++ sqls /\
      Forall2 (fun b p => mk b = Ok (CSql (b_name b) (fst (snd p)) (snd (snd p))) /\ fst p = b_name b) bs sqls.
  Proof.
    induction bs as [|x bs IH]; intros b fs u fs' tr rest FR B ND H.
    - exists b, fs, tr, []. rewrite app_nil_r. repeat (split; [assumption || reflexivity|]). constructor.
    - cbn [map app fs_calls] in H. apply fbind_ok in H as (c & fs1 & t1 & t2 & E1 & H & _).
      unfold flift in E1. injection E1 as E1 <- <-.
      apply fbind_ok in H as (v & fs1 & t3 & t4 & E2 & H & _).
      destruct (fs_call_frame name c _ _ _ _ (proj1 FR) E2) as [FR1 _].
      assert (FR2 : frame name fs0 fs1) by (eapply frame_trans; eauto).
      destruct (Mk x c E1) as (up & down & ->). cbn [fs_call] in E2. cbn [map] in ND.
      assert (ND' := NoDup_remove_2 _ _ _ ND).
      apply (built_sql _ b) in E2 as (_ & B1); [|exact (proj1 FR)|exact B|intros Hin; apply ND', in_or_app; auto].
      destruct (fun X => IH _ _ u fs' t4 rest FR2 B1 X H) as (b1 & fs2 & t5 & sqls & R1 & R2 & R3 & R4 & R5 & R6 & R7 & R8).
      { cbn [bl_sqls]. rewrite map_app, <- app_assoc. cbn. exact ND. }
      exists b1, fs2, t5, ((b_name x, (up, down)) :: sqls). cbn in R4, R5, R6, R7. rewrite <- app_assoc in R7.
      repeat (split; [assumption|]). constructor; auto.
  Qed.
End Create.

(** Tables that no operation touches are the same on both sides. *)
Lemma untouched old new ops n t : wf_schema old -> wf_schema new -> diff_out old new = Ok ops ->
  In (n, t) (a_tables new) -> ~ In n (flat_map op_modifies ops) ->
  exists t0, In (n, t0) (a_tables old) /\ same_table t0 t.
Proof.
  intros Wo Wn E Ht N.
  assert (X : forall op, op_justified old new op -> In n (op_modifies op) -> False).
  { intros op J Hn. apply N. apply in_flat_map. exists op. split; [|exact Hn].
    now apply (diff_op_In old new ops). }
  destruct (proj2 Wn n t Ht) as [En Wt].
  destruct (mget n (a_tables old)) as [t0|] eqn:G.
  - apply mget_In in G. exists t0. split; [exact G|]. destruct (proj2 Wo n t0 G) as [En0 Wt0].
    split; [congruence|]. split.
    + intros c Hc. destruct (in_dec string_dec (c_name c) (map c_name (t_cols t))) as [Hin|Hout].
      * apply in_map_iff in Hin as (c' & Ec & Hc'). exists c'. split; [exact Hc'|].
        destruct (acol_eqb c c') eqn:Eq; [now apply acol_eqb_iff|]. exfalso.
        apply (X (ChangeColumn n c c')); [|cbn; auto]. exists t0, t. repeat (split; [auto; fail|]).
        intros S. apply acol_eqb_iff in S. congruence.
      * exfalso. apply (X (RemoveColumn n (c_name c))); [|cbn; auto]. exists t0, t.
        repeat (split; [auto; fail|]). split; [exists c; auto|]. intros (c' & Hc' & Ec). apply Hout.
        rewrite <- Ec. apply in_map, Hc'.
    + intros c' Hc'. destruct (in_dec string_dec (c_name c') (map c_name (t_cols t0))) as [Hin|Hout].
      * apply in_map_iff in Hin as (c & Ec & Hc). exists c. split; [exact Hc|].
        destruct (acol_eqb c c') eqn:Eq; [now apply acol_eqb_iff|]. exfalso.
        apply (X (ChangeColumn n c c')); [|cbn; auto]. exists t0, t. repeat (split; [auto; fail|]).
        intros S. apply acol_eqb_iff in S. congruence.
      * exfalso. apply (X (AddColumn n c')); [|cbn; auto]. exists t0, t.
        repeat (split; [auto; fail|]). intros (c & Hc & Ec). apply Hout. rewrite <- Ec. apply in_map, Hc.
  - exfalso. apply (X (AddTable t)); [|cbn; auto]. cbn. rewrite En. split; [exact Ht|].
    intros [t0 H0]. apply In_mget in H0; [congruence|exact (proj1 Wo)].
Qed.

Definition merged (modified : ATable -> bool) (old new : ADB) : ADB :=
  {| a_tables := map (fun p => (fst p, if modified (snd p) then snd p
                                       else match mget (fst p) (a_tables old) with
                                            | Some t0 => t0
                                            | None => snd p
                                            end)) (a_tables new);
     a_types := [] |}.
Lemma merged_keys md old new : mkeys (a_tables (merged md old new)) = mkeys (a_tables new).
Proof. unfold mkeys. cbn. rewrite map_map. reflexivity. Qed.
Lemma merged_In md old new n t : msorted (a_tables new) -> (In (n, t) (a_tables (merged md old new)) <->
  exists t1, In (n, t1) (a_tables new) /\
    t = if md t1 then t1 else match mget n (a_tables old) with Some t0 => t0 | None => t1 end).
Proof.
  intros S. cbn. rewrite in_map_iff. split.
  - intros ([n1 t1] & [= <- <-] & H). exists t1. auto.
  - intros (t1 & H & ->). exists (n, t1). auto.
Qed.

Lemma save_state_run s fs : save_state (Some s) fs =
  (Ok tt, {| fs_dirs := fs_dirs fs; fs_state := Some (FState (Some s)); fs_gitignore := true |},
   [{| fs_dirs := fs_dirs fs; fs_state := fs_state fs; fs_gitignore := true |};
    {| fs_dirs := fs_dirs fs; fs_state := Some (FTorn ""); fs_gitignore := true |};
    {| fs_dirs := fs_dirs fs; fs_state := Some (FState (Some s)); fs_gitignore := true |}]).
Proof. reflexivity. Qed.

Lemma from_schema_wf fs from d : from_schema fs from d -> wf_schema d.
Proof. destruct from; [intros S; apply S|intros ->; apply empty_wf]. Qed.
Lemma from_schema_settled fs from d : from_schema fs from d -> settled d.
Proof. destruct from; [intros S; apply S|]. intros ->. intros n t []. Qed.

Lemma create_reads ls bs name from to fs d : fs_ok fs -> listing ls -> from_schema fs from d ->
  exists t0, Forall (eq fs) t0 /\
  fs_create_to ls bs name from to fs =
  let '(o, fs', tr) := fbind (flift (create_calls bs from d to)) (fun calls =>
    match calls with
    | None => fret false
    | Some l => fdo _ <- fs_calls name l; fdo _ <- fs_add name; fret true
    end) fs in (o, fs', t0 ++ tr).
Proof.
  intros OK PL S. unfold fs_create_to, fbind at 1. destruct from as [f|]; cbn [from_schema] in S.
  - exists [fs]. split; [auto|]. unfold fs_db, fbind at 1. rewrite ensure_dir_there by apply S.
    unfold fread. rewrite (stored_schema fs f d OK S ls PL). cbn [app]. destruct (fbind _ _ fs) as [[o fs'] tr]. reflexivity.
  - subst d. exists []. split; [auto|]. cbn [fret]. destruct (fbind _ _ fs) as [[o fs'] tr]. reflexivity.
Qed.

Lemma fs_not_created ls bs name from to fs d fs' tr : fs_ok fs -> listing ls -> from_schema fs from d ->
  wf_schema to -> fs_create_to ls bs name from to fs = (Ok false, fs', tr) ->
  fs' = fs /\ same_schema d to.
Proof.
  intros OK PL S Wt H. destruct (create_reads ls bs name from to fs d OK PL S) as (t0 & _ & E). rewrite E in H. clear E.
  unfold fbind at 1, flift in H.
  destruct (create_calls bs from d to) as [[calls|]| |] eqn:Ec; try discriminate.
  - destruct (fs_calls name calls fs) as [[o1 fs1] t1] eqn:E1. unfold fbind at 1 in H. rewrite E1 in H.
    destruct o1; try discriminate. unfold fbind at 1 in H. destruct (fs_add name fs1) as [[o2 fs2] t2].
    destruct o2; discriminate.
  - cbn in H. injection H as <- _. split; [reflexivity|].
    apply create_none in Ec. rewrite diff_eq in Ec. injection Ec as Ec. apply diff_empty_iff in Ec; auto.
    eapply from_schema_wf; eauto.
Qed.

(** A directory with nothing in it but, possibly, the name of the predecessor. *)
Definition blank (name : string) (fs : FS) : Prop :=
  exists o, built name {| bl_tables := []; bl_bases := []; bl_sqls := []; bl_from := o |} fs.
Lemma blank_absent name fs : ~ has_dir fs name -> blank name fs.
Proof.
  intros Fr. exists None.
  assert (G0 : forall k, get_file name k fs = None).
  { intros k. unfold get_file. destruct (mget name (fs_dirs fs)) eqn:E; [|reflexivity]. exfalso. apply Fr. eexists; eauto. }
  split; [unfold read_info; now rewrite G0|]. intros k f Nk. rewrite G0. split; [discriminate|intros []].
Qed.
Lemma blank_get name fs k : blank name fs -> k <> "info.json"%string -> get_file name k fs = None.
Proof.
  intros [o [_ F]] Nk. destruct (get_file name k fs) as [f|] eqn:E; [|reflexivity]. apply F in E; [destruct E|exact Nk].
Qed.
Definition touches (ops : list Operation) (t : ATable) : bool := kmem (t_name t) (flat_map op_modifies ops).

Lemma create_core ls bs name from to fs d calls u fs6 tr :
  fs_ok fs -> listing ls -> blank name fs -> from <> Some name -> from_schema fs from d ->
  wf_schema to -> settled to -> NoDup (map b_name bs) ->
  create_calls bs from d to = Ok (Some calls) -> fs_calls name calls fs = (Ok u, fs6, tr) ->
  exists ops, diff_out d to = Ok ops /\ ~ same_schema d to /\ frame name fs fs6 /\
  stored fs6 name (merged (touches ops) d to) /\ same_schema (merged (touches ops) d to) to /\
  (forall n t, In (n, t) (a_tables to) -> touches ops t = true -> get_file name (table_file n) fs6 = Some (FTable t)) /\
  (forall n t, In (n, t) (a_tables to) -> touches ops t = false -> get_file name (table_file n) fs6 = None /\
     exists t0, In (n, t0) (a_tables d) /\ same_table t0 t) /\
  omap in_from (read_info name fs6) = Ok from /\
  omap in_backends (read_info name fs6) = Ok (map b_name bs) /\
  (forall b, In b bs -> exists up down, scripts_of bs from d to b up down /\
     read_sql name (b_name b) "up" fs6 = Ok (Some (with_newline up)) /\
     read_sql name (b_name b) "down" fs6 = Ok (Some (with_newline down))) /\
  (forall k f, get_file name k fs6 = Some f -> k = "info.json"%string \/ ends_with k ".table" = true \/
     exists b dir, In b bs /\ (dir = "up"%string \/ dir = "down"%string) /\ k = sql_name (b_name b) dir) /\
  (forall i x b, read_info name fs6 = Ok i -> mget x (in_bases i) = Some b -> exists f, from = Some f /\
     (b = f \/ exists fi, read_info f fs = Ok fi /\ mget x (in_bases fi) = Some b)).
Proof.
  intros OK PL BL Oth S Wt St NDb E1 E2.
  pose proof (from_schema_wf _ _ _ S) as Wd. pose proof (from_schema_settled _ _ _ S) as Sd.
  apply create_some in E1 as (ops & Ed & Ne & ->). exists ops.
  set (md := touches ops).
  destruct (fs_calls_frame name _ _ _ _ _ OK E2) as [FR1 _].
  (* information about the predecessor *)
  assert (FI : exists fi, forall f, from = Some f -> read_info f fs = Ok fi /\ has_dir fs f).
  { unfold from_schema in S. destruct from as [f|]; [|exists info_new; discriminate].
    destruct (st_info _ _ _ S) as (i & I & _). exists i. intros f' [= <-]. split; [exact I|apply S]. }
  destruct FI as [fi FI]. pose proof (fun k => blank_get name fs k BL) as BG. destruct BL as [bf B0].
  assert (NDt : NoDup (map t_name (mvals (a_tables to)))).
  { rewrite names_mvals; [apply sorted_NoDup, Wt|]. intros k t Hk. exact (proj1 (proj2 Wt k t Hk)). }
  eapply (calls_tables name md from fi fs Oth FI _ []) in E2 as
    (b1 & fs4 & t7 & FR4 & B1 & E2 & T1 & Q1 & F1 & SB1 & G1 & MD1);
    [|apply frame_refl, OK|exact B0|exact NDt|reflexivity|constructor|reflexivity].
  cbn [app bl_sqls bl_from] in T1, Q1, F1, G1.
  eapply (calls_sqls name fs) in E2 as (b2 & fs5 & t8 & sqls & FR5 & B2 & E2 & T2 & Bs2 & F2 & Q2 & SQ);
    [|intros b x|exact FR4|exact B1|rewrite Q1; exact NDb].
  2: { destruct (b_sql b d _) as [up| |]; cbn; try discriminate.
       destruct (diff_out to d) as [dd| |]; cbn; try discriminate.
       destruct (b_sql b to dd) as [w| |]; cbn; try discriminate. intros [= <-]. eauto. }
  rewrite Q1 in Q2. cbn [app] in Q2. cbn [fs_calls] in E2.
  apply fbind_ok in E2 as (c & fs7 & t9 & t10 & Ec & E2 & _). unfold flift in Ec. injection Ec as <- <- <-.
  apply fbind_ok in E2 as (v & fs8 & t11 & t12 & Ec & E2 & _). unfold fret in E2. injection E2 as <- <- <-.
  cbn [fs_call] in Ec. apply (built_from _ b2) in Ec as (HD6 & B6); [|apply FR5|exact B2].
  destruct B6 as [I6 F6]. cbn [bl_from bl_bases bl_sqls] in I6.
  assert (SO : same_outside name fs fs8) by (exact (proj1 (proj2 FR1))).
  split; [exact Ed|]. split.
  { intros SS. apply diff_empty_iff in SS; [|assumption..]. rewrite diff_eq in Ed. injection Ed as <-. contradiction. }
  split; [exact FR1|].
  (* the files in the new directory *)
  assert (FB : forall k f, k <> "info.json"%string -> (get_file name k fs8 = Some f <->
    In (k, f) (bl_files {| bl_tables := bl_tables b2; bl_bases := bl_bases b2; bl_sqls := bl_sqls b2; bl_from := from |})))
    by (intros k f Nk; exact (F6 k f Nk)).
  assert (TB : bl_tables b2 = filter md (mvals (a_tables to))) by congruence.
  assert (FT : forall t, In t (mvals (a_tables to)) -> md t = true -> get_file name (table_file (t_name t)) fs8 = Some (FTable t)).
  { intros t Ht Em. apply FB; [apply table_file_info|]. unfold bl_files. cbn [bl_tables]. apply in_or_app. left.
    apply in_map_iff. exists t. split; [reflexivity|]. rewrite TB. apply filter_In. auto. }
  assert (FTn : forall x f, get_file name (table_file x) fs8 = Some f -> exists t, In t (mvals (a_tables to)) /\ md t = true /\ x = t_name t /\ f = FTable t).
  { intros x f Hf. apply FB in Hf; [|apply table_file_info]. apply bl_files_key in Hf as [(t & Ht & Ex & ->)|(y & v1 & w1 & _ & [[Ex _]|[Ex _]])].
    - cbn [bl_tables] in Ht. rewrite TB in Ht. apply filter_In in Ht as [Ht Em]. apply table_file_inj in Ex. eauto.
    - now apply table_file_sql in Ex.
    - now apply table_file_sql in Ex. }
  assert (TV : forall n t, In (n, t) (a_tables to) -> In t (mvals (a_tables to)) /\ t_name t = n).
  { intros n t Ht. split; [apply in_map_iff; exists (n, t); auto|exact (proj1 (proj2 Wt n t Ht))]. }
  assert (VT : forall t, In t (mvals (a_tables to)) -> In (t_name t, t) (a_tables to)).
  { intros t Ht. apply in_map_iff in Ht as ([n w] & <- & Hp). cbn. now rewrite (proj1 (proj2 Wt n w Hp)). }
  assert (UT : forall n t, In (n, t) (a_tables to) -> md t = false -> exists t0, mget n (a_tables d) = Some t0 /\ In (n, t0) (a_tables d) /\ same_table t0 t).
  { intros n t Ht Em. unfold md, touches in Em. rewrite (proj2 (TV n t Ht)) in Em. apply kmem_not_In in Em.
    destruct (untouched d to ops n t Wd Wt Ed Ht Em) as (t0 & H0 & Sm). exists t0. split; [|auto].
    apply In_mget; [exact (proj1 Wd)|exact H0]. }
  pose proof (proj1 Wt) as Srt.
  assert (SS : same_schema (merged md d to) to).
  { split.
    - intros n t Ht. apply merged_In in Ht as (t1 & H1 & ->); [|exact Srt]. exists t1. split; [exact H1|].
      destruct (md t1) eqn:Em.
      + apply same_table_refl. exact (proj2 (proj2 Wt n t1 H1)).
      + destruct (UT n t1 H1 Em) as (t0 & -> & _ & Sm). exact Sm.
    - intros n t1 H1. exists (if md t1 then t1 else match mget n (a_tables d) with Some t0 => t0 | None => t1 end).
      split; [apply merged_In; [exact Srt|eauto]|]. destruct (md t1) eqn:Em.
      + apply same_table_refl. exact (proj2 (proj2 Wt n t1 H1)).
      + destruct (UT n t1 H1 Em) as (t0 & -> & _ & Sm). exact Sm. }
  assert (NF : forall x t, In (x, t) (a_tables to) -> md t = false -> get_file name (table_file x) fs8 = None).
  { intros x t Ht Em. destruct (get_file name (table_file x) fs8) as [f|] eqn:Ef; [exfalso|reflexivity].
    apply FTn in Ef as (t' & Ht' & Em' & -> & _). apply VT in Ht'.
    apply In_mget in Ht; [|exact Srt]. apply In_mget in Ht'; [|exact Srt]. congruence. }
  split.
  { assert (MI : forall n t, In (n, t) (a_tables (merged md d to)) ->
              (In (n, t) (a_tables to) /\ md t = true) \/ (In (n, t) (a_tables d) /\ exists t1, In (n, t1) (a_tables to) /\ md t1 = false)).
    { intros n t Ht. apply merged_In in Ht as (t1 & H1 & ->); [|exact Srt]. destruct (md t1) eqn:Em; [auto|].
      destruct (UT n t1 H1 Em) as (t0 & -> & H0 & _). right. eauto. }
    split.
    - exact HD6.
    - split; [unfold msorted; rewrite merged_keys; exact Srt|]. intros n t Ht.
      destruct (MI n t Ht) as [[H1 _]|[H1 _]]; [exact (proj2 Wt n t H1)|exact (proj2 Wd n t H1)].
    - reflexivity.
    - intros n t Ht. destruct (MI n t Ht) as [[H1 _]|[H1 _]]; [exact (St n t H1)|exact (Sd n t H1)].
    - destruct (get_file name "types.json" fs8) as [f|] eqn:Ef; [exfalso|reflexivity].
      apply FB in Ef; [|discriminate].
      apply bl_files_key in Ef as [(t & _ & Ex & _)|(y & v1 & w1 & _ & [[Ex _]|[Ex _]])]; symmetry in Ex.
      + now apply table_file_types in Ex.
      + now apply sql_name_types in Ex.
      + now apply sql_name_types in Ex.
    - intros k f Hf Ek. destruct (String.eqb_spec k "info.json") as [->|Nk]; [discriminate|].
      apply FB in Hf; [|exact Nk].
      apply bl_files_key in Hf as [(t & Ht & Ex & ->)|(y & v1 & w1 & _ & [[Ex _]|[Ex _]])].
      + exists t. split; [exact Ex|]. split; [reflexivity|]. cbn [bl_tables] in Ht. rewrite TB in Ht.
        apply filter_In in Ht as [Ht Em]. apply merged_In; [exact Srt|]. exists t. split; [apply VT, Ht|]. now rewrite Em.
      + subst k. now rewrite sql_name_ends in Ek.
      + subst k. now rewrite sql_name_ends in Ek.
    - eexists. split; [exact I6|]. cbn [in_bases]. rewrite Bs2. split; [exact SB1|].
      assert (UN : forall x b, mget x (bl_bases b1) = Some b -> exists t, In (x, t) (a_tables to) /\ md t = false /\ b = base from fi x).
      { intros x b Hx. rewrite G1 in Hx. destruct (existsb _ _) eqn:Ex; [|discriminate]. injection Hx as <-.
        apply existsb_exists in Ex as (t & Ht & Ex). apply andb_true_iff in Ex as [E1 E2].
        apply String.eqb_eq in E1. apply negb_true_iff in E2. exists t. rewrite <- E1. split; [apply VT, Ht|]. auto. }
      split.
      + intros x b Hx. destruct (UN x b Hx) as (t & Ht & Em & ->). split; [exact (NF x t Ht Em)|].
        destruct (UT x t Ht Em) as (t0 & G0 & H0 & _). exists t0. split.
        { apply merged_In; [exact Srt|]. exists t. split; [exact Ht|]. now rewrite Em, G0. }
        (* the table is found where the predecessor finds it *)
        unfold from_schema in S. destruct from as [f|] eqn:Ef; [|subst d; destruct H0].
        destruct (FI f eq_refl) as [If Hf]. destruct (st_info _ _ _ S) as (i & Ii & _ & Bi & Ci).
        assert (i = fi) by congruence. subst i.
        assert (Y : exists n, base (Some f) fi x = n /\ get_file n (table_file x) fs = Some (FTable t0)).
        { unfold base. destruct (mget x (in_bases fi)) as [b|] eqn:Gb.
          - destruct (Bi x b Gb) as (_ & tt2 & H2 & G2). exists b. split; [reflexivity|].
            apply In_mget in H2; [|exact (proj1 Wd)]. congruence.
          - exists f. split; [reflexivity|]. destruct (Ci x t0 H0) as [G2|[b Gb']]; [exact G2|congruence]. }
        destruct Y as (n & -> & Gn). rewrite (get_file_same name fs fs8); [exact Gn|exact SO|].
        intros ->. rewrite BG in Gn by apply table_file_info. discriminate.
      + intros x t Ht. apply merged_In in Ht as (t1 & H1 & ->); [|exact Srt]. destruct (TV x t1 H1) as [V1 N1].
        destruct (md t1) eqn:Em.
        * left. rewrite <- N1. apply FT; assumption.
        * right. exists (base from fi x). rewrite G1.
          assert (existsb (fun t => String.eqb (t_name t) x && negb (md t)) (mvals (a_tables to)) = true) as ->; [|reflexivity].
          apply existsb_exists. exists t1. split; [exact V1|]. rewrite N1, String.eqb_refl, Em. reflexivity. }
  split; [exact SS|]. split.
  { intros n t Ht Em. destruct (TV n t Ht) as [V1 <-]. apply FT; assumption. }
  split.
  { intros n t Ht Em. split; [exact (NF n t Ht Em)|]. destruct (UT n t Ht Em) as (t0 & _ & H0 & Sm). eauto. }
  split; [now rewrite I6|]. split.
  { rewrite I6. cbn. f_equal. rewrite Q2.
    clear - SQ. induction SQ as [|b p bs ps [_ E] F IH]; cbn; [reflexivity|]. now rewrite E, IH. }
  split.
  { intros b Hb. destruct (Forall2_In_r _ _ _ SQ b Hb) as ([x [up down]] & Hp & Eb & Ex). cbn in Eb, Ex. subst x.
    exists up, down. split.
    { split; [exact Hb|]. destruct (b_sql b d (first_ops from ops)) as [u'| |] eqn:Eu; cbn in Eb; try discriminate.
      destruct (diff_out to d) as [dops| |] eqn:Edd; cbn in Eb; try discriminate.
      destruct (b_sql b to dops) as [w| |] eqn:Ew; cbn in Eb; try discriminate.
      injection Eb as -> ->. exists ops, dops. auto. }
    assert (SF : forall dir s, (dir = "up" /\ s = up)%string \/ (dir = "down" /\ s = down)%string ->
              get_file name (sql_name (b_name b) dir) fs8 = Some (FSql (with_newline s))).
    { intros dir s Hd. apply FB; [apply sql_name_info|]. unfold bl_files. cbn [bl_sqls]. apply in_or_app. right.
      apply in_flat_map. exists (b_name b, (up, down)). split; [rewrite Q2; exact Hp|]. cbn [fst snd].
      destruct Hd as [[-> ->]|[-> ->]]; cbn; auto. }
    unfold read_sql. rewrite (SF "up"%string up), (SF "down"%string down) by auto. auto. }
  split.
  { intros k f Hf. destruct (String.eqb_spec k "info.json") as [->|Nk]; [auto|]. right. apply FB in Hf; [|exact Nk].
    apply bl_files_key in Hf as [(t & Ht & -> & ->)|(y & v1 & w1 & Hy & Ex)].
    - left. apply table_file_ends.
    - right. cbn [bl_sqls] in Hy. rewrite Q2 in Hy. destruct (Forall2_In_l _ _ _ SQ _ Hy) as (b & Hb & _ & Eb). cbn in Eb. subst y.
      exists b. destruct Ex as [[-> _]|[-> _]]; [exists "up"%string|exists "down"%string]; auto. }
  intros i x b Ei Hx. rewrite I6 in Ei. injection Ei as <-. cbn [in_bases] in Hx. rewrite Bs2, G1 in Hx.
  destruct (existsb _ _) eqn:Ex; [|discriminate]. injection Hx as <-.
  apply existsb_exists in Ex as (t & Ht & Ex). apply andb_true_iff in Ex as [X1 X2].
  apply negb_true_iff in X2. destruct (UT _ t (VT t Ht) X2) as (t0 & _ & H0 & _).
  unfold from_schema in S. destruct from as [f|] eqn:Ef; [|subst d; destruct H0].
  exists f. split; [reflexivity|]. unfold base. destruct (mget x (in_bases fi)) as [b|] eqn:Gb; [|auto].
  right. exists fi. split; [apply (FI f eq_refl)|exact Gb].
Qed.

Lemma stored_dirs fs fs' n d : fs_dirs fs' = fs_dirs fs -> stored fs n d -> stored fs' n d.
Proof.
  intros E [D W T ST NT F I]. assert (G : forall m k, get_file m k fs' = get_file m k fs) by (intros; unfold get_file; now rewrite E).
  split; auto.
  - unfold has_dir in *. now rewrite E.
  - now rewrite G.
  - intros k f. rewrite G. apply F.
  - destruct I as (i & I & SB & B & C). exists i. split; [rewrite <- I; apply read_info_same, G|]. split; [exact SB|]. split.
    + intros x b Hx. rewrite G. destruct (B x b Hx) as (A1 & t & A2 & A3). split; [exact A1|]. exists t. now rewrite G.
    + intros x t Ht. rewrite G. apply C, Ht.
Qed.

Lemma fs_created ls bs name to fs d l fs' tr :
  fs_ok fs -> listing ls -> ~ has_dir fs name -> get_state fs = Ok (fs_latest fs) ->
  chain (fs_coll fs) l -> from_schema fs (fs_latest fs) d ->
  wf_schema to -> settled to -> NoDup (map b_name bs) ->
  fs_create_to ls bs name (fs_latest fs) to fs = (Ok true, fs', tr) ->
  ~ same_schema d to /\ fs_ok fs' /\ same_outside name fs fs' /\ get_state fs' = Ok (fs_latest fs') /\
  fs_latest fs' = Some name /\ chain (fs_coll fs') (l ++ [name]) /\
  (exists d', same_schema d' to /\ stored fs' name d' /\ forall n t, In (n, t) (a_tables d') -> In (n, t) (a_tables d) \/ In (n, t) (a_tables to)) /\
  omap in_backends (read_info name fs') = Ok (map b_name bs) /\
  (forall b, In b bs -> exists up down, scripts_of bs (fs_latest fs) d to b up down /\
     read_sql name (b_name b) "up" fs' = Ok (Some (with_newline up)) /\
     read_sql name (b_name b) "down" fs' = Ok (Some (with_newline down))).
Proof.
  intros OK PL Fr GS CH S Wt St NDb H. set (from := fs_latest fs) in *.
  destruct (create_reads ls bs name from to fs d OK PL S) as (tr0 & _ & E). rewrite E in H. clear E.
  destruct (fbind _ _ fs) as [[o fs2] tr2] eqn:EB. injection H as -> -> _.
  apply fbind_ok in EB as (calls & fs1 & t1 & t2 & E1 & EB & _). unfold flift in E1. injection E1 as E1 <- <-.
  destruct calls as [calls|]; [|discriminate].
  apply fbind_ok in EB as (u1 & fs6 & t3 & t4 & E2 & EB & _).
  apply fbind_ok in EB as (u2 & fs3 & t5 & t6 & E3 & EB & _). unfold fret in EB. injection EB as <- <-.
  assert (FD : forall f, from = Some f -> has_dir fs f) by (intros f; apply latest_dir).
  assert (Oth : from <> Some name) by (intros X; apply Fr, FD, X).
  destruct (create_core ls bs name from to fs d calls u1 fs6 t3 OK PL (blank_absent _ _ Fr) Oth S Wt St NDb E1 E2)
    as (ops & Ed & N & FR1 & SD & SS & _ & _ & I6 & B6 & Q6 & _ & _).
  pose proof (st_dir _ _ _ SD) as HD6.
  (* add_migration *)
  unfold fs_add in E3. apply fbind_ok in E3 as (i & fs7 & t13 & t14 & Ei & E3 & _).
  apply fread_ok in Ei as (Ei & -> & ->). rewrite Ei in I6. injection I6 as I6.
  apply fbind_ok in E3 as (lat & fs7 & t15 & t16 & El & E3 & _). apply fread_ok in El as (El & -> & ->).
  assert (El' : lat = from).
  { unfold get_state in El. rewrite (proj2 (proj2 FR1)) in El. fold (get_state fs) in El. rewrite GS in El. now injection El. }
  subst lat. rewrite I6 in E3.
  assert (NL : (match from with None => true | Some _ => false end
               || match from, from with Some a, Some b => String.eqb a b | _, _ => false end) = true).
  { destruct from; [cbn; apply String.eqb_refl|reflexivity]. }
  rewrite NL in E3. rewrite save_state_run in E3. injection E3 as <- <-.
  set (fs' := {| fs_dirs := fs_dirs fs6; fs_state := Some (FState (Some name)); fs_gitignore := true |}).
  assert (SO : same_outside name fs fs') by (exact (proj1 (proj2 FR1))).
  assert (LN : fs_latest fs' = Some name).
  { unfold fs_latest, get_state, fs'. cbn [fs_state]. apply fs_get_dir. split; [reflexivity|exact HD6]. }
  split; [exact N|].
  split; [exact (proj1 FR1)|]. split; [exact SO|]. split; [rewrite LN; reflexivity|]. split; [exact LN|]. split.
  { unfold chain. cbn [cl_latest fs_coll]. rewrite LN. unfold chain in CH. cbn [cl_latest fs_coll] in CH.
    fold from in CH. destruct from as [f|] eqn:Ef.
    - econstructor.
      + exists f. split.
        * cbn. change (read_info name fs') with (read_info name fs6). rewrite Ei. cbn. now rewrite I6.
        * apply fs_get_dir. split; [reflexivity|]. apply (dir_same name fs fs'); auto.
          intros ->. now apply Oth.
      + apply (chain_to_same name fs fs'); auto.
    - subst l. constructor. unfold is_first. cbn. change (read_info name fs') with (read_info name fs6). rewrite Ei. cbn. now rewrite I6. }
  split.
  { exists (merged (touches ops) d to). split; [exact SS|]. split; [apply (stored_dirs fs6); [reflexivity|exact SD]|].
    intros n t Ht. apply merged_In in Ht as (t1 & H1 & ->); [|exact (proj1 Wt)]. destruct (touches ops t1); [auto|].
    destruct (mget n (a_tables d)) as [t0|] eqn:Em; [left; now apply mget_In|auto]. }
  split; [exact B6|exact Q6].
Qed.

(** * Stopping in the middle *)
Lemma read_same name fs x n ls d : same_outside name fs x -> ~ has_dir fs name -> n <> name ->
  fs_read_db ls n fs = Ok d -> fs_read_db ls n x = Ok d.
Proof.
  intros SO NH N H. unfold fs_read_db in *. rewrite (read_info_same n fs x) by (eapply get_file_same; eauto).
  destruct (read_info n fs) as [i| |]; cbn [obind] in *; try discriminate.
  assert (X : forall l a e, ofold (fun db p => omap (replace_table db) (read_table (snd p) (table_file (fst p)) fs)) l a = Ok e ->
              ofold (fun db p => omap (replace_table db) (read_table (snd p) (table_file (fst p)) x)) l a = Ok e).
  { induction l as [|[t b] l IH]; cbn [ofold]; [auto|]. intros a e. cbn [fst snd].
    destruct (read_table b (table_file t) fs) as [v| |] eqn:Er; cbn; try discriminate.
    intros He. assert (Er' : read_table b (table_file t) x = Ok v).
    { unfold read_table in *. rewrite (get_file_same name fs x); [exact Er|exact SO|]. intros ->.
      unfold get_file in Er. destruct (mget name (fs_dirs fs)) eqn:Eg; [|discriminate]. apply NH. eexists; eauto. }
    rewrite Er'. cbn. apply IH, He. }
  destruct (ofold _ (in_bases i) adb_new) as [db| |] eqn:Eb; cbn [obind] in H; try discriminate.
  rewrite (X _ _ _ Eb). cbn [obind].
  assert (DF : dir_files n x = dir_files n fs) by (unfold dir_files; now rewrite SO).
  rewrite DF.
  rewrite (ofold_ext (fs_entry n x) (fs_entry n fs)); [exact H|].
  intros k b _. unfold fs_entry, read_table. now rewrite !(get_file_same name fs x n) by assumption.
Qed.
Lemma intact_same name fs x l : same_outside name fs x -> ~ has_dir fs name -> fs_state x = fs_state fs ->
  get_state fs = Ok (fs_latest fs) -> chain (fs_coll fs) l -> intact fs x l.
Proof.
  intros SO NH ES GS CH. split; [eapply chain_same; eauto|]. intros n Hn.
  assert (Nn : n <> name).
  { intros ->. apply NH. unfold chain in CH. cbn [cl_latest fs_coll] in CH.
    destruct (fs_latest fs) as [m|] eqn:El; [|subst l; destruct Hn].
    eapply chain_dirs; eauto. now apply latest_dir. }
  split.
  - intros d Hd ls PL. eapply read_same; eauto.
  - intros b dir. unfold read_sql. now rewrite (get_file_same name fs x).
Qed.

Lemma fs_add_trace name fs o fs' tr : fs_ok fs -> fs_add name fs = (o, fs', tr) ->
  (o <> Ok tt /\ fs' = fs /\ tr = []) \/
  (o = Ok tt /\ fs' = fs /\ tr = []) \/
  (o = Ok tt /\ fs_dirs fs' = fs_dirs fs /\ tr = [{| fs_dirs := fs_dirs fs; fs_state := fs_state fs; fs_gitignore := true |};
         {| fs_dirs := fs_dirs fs; fs_state := Some (FTorn ""); fs_gitignore := true |}; fs']).
Proof.
  intros OK H. unfold fs_add, fbind, fread in H.
  destruct (read_info name fs) as [i| |]; [|injection H as <- <- <-; left; repeat split; discriminate..].
  destruct (get_state fs) as [l| |]; [|injection H as <- <- <-; left; repeat split; discriminate..].
  destruct (_ || _); [|injection H as <- <- <-; right; left; auto].
  rewrite save_state_run in H. injection H as <- <- <-. right. right. auto.
Qed.

Lemma fs_create_trace ls bs name from to fs d o fs' tr :
  fs_ok fs -> listing ls -> from_schema fs from d -> fs_create_to ls bs name from to fs = (o, fs', tr) ->
  (frame name fs fs' \/ o = Ok true) /\
  Forall (fun x => frame name fs x \/ (o = Ok true /\ ((torn_state x /\ same_outside name fs x) \/ x = fs'))) tr.
Proof.
  intros OK PL S H. destruct (create_reads ls bs name from to fs d OK PL S) as (t0 & T0 & E). rewrite E in H. clear E.
  destruct (fbind _ _ fs) as [[o1 fs1] tr1] eqn:EB. injection H as -> -> <-.
  assert (F0 : frame name fs fs) by (apply frame_refl, OK).
  assert (T0' : Forall (fun x => frame name fs x \/ (o = Ok true /\ ((torn_state x /\ same_outside name fs x) \/ x = fs'))) t0).
  { eapply Forall_impl; [|exact T0]. intros x <-. auto. }
  unfold fbind at 1, flift in EB.
  destruct (create_calls bs from d to) as [[calls|]|e|] eqn:Ec.
  2,3,4: injection EB as <- <- <-; split; [auto|]; rewrite app_nil_r; exact T0'.
  destruct (fs_calls name calls fs) as [[o2 fs2] t2] eqn:E2. unfold fbind at 1 in EB. rewrite E2 in EB.
  destruct (fs_calls_frame name _ _ _ _ _ OK E2) as [FR2 T2].
  assert (T2' : Forall (fun x => frame name fs x \/ (o = Ok true /\ ((torn_state x /\ same_outside name fs x) \/ x = fs'))) t2).
  { eapply Forall_impl; [|exact T2]. auto. }
  destruct o2 as [u|e|].
  2,3: injection EB as <- <- <-; split; [auto|]; apply Forall_app; auto.
  unfold fbind in EB. destruct (fs_add name fs2) as [[o3 fs3] t3] eqn:E3.
  destruct (fs_add_trace name fs2 o3 fs3 t3 (proj1 FR2) E3) as [(N & -> & ->)|[(-> & -> & ->)|(-> & Ed & ->)]].
  - destruct o3 as [[]|e|]; [contradiction| |]; injection EB as <- <- <-; (split; [auto|]; repeat (apply Forall_app; split; auto)).
  - cbn in EB. injection EB as <- <- <-. split; [auto|]. repeat (apply Forall_app; split; auto).
  - cbn in EB. injection EB as <- <- <-. split; [auto|]. repeat (apply Forall_app; split; auto).
    constructor; [left; exact FR2|]. constructor; [right; split; [reflexivity|left; split; [reflexivity|apply FR2]]|].
    constructor; [auto|constructor].
Qed.

(** * A whole history *)
Definition holds (fs : FS) (made : list (string * ADB)) (d : ADB) : Prop :=
  fs_ok fs /\ get_state fs = Ok (fs_latest fs) /\ chain (fs_coll fs) (map fst made) /\
  (exists d0, from_schema fs (fs_latest fs) d0 /\ same_schema d0 d) /\
  (forall n to, In (n, to) made -> exists d', stored fs n d' /\ same_schema d' to).
Lemma holds_migrations_of fs made d : holds fs made d -> holds_migrations fs made.
Proof.
  intros (OK & _ & CH & _ & ST). split; [exact CH|]. intros n to H. destruct (ST n to H) as (d' & S & SS).
  exists d'. split; [apply stored_schema; assumption|exact SS].
Qed.
Lemma from_schema_same name fs x from d : same_outside name fs x -> ~ has_dir fs name -> from_schema fs from d -> from_schema x from d.
Proof. intros SO NH. destruct from; cbn; [|auto]. now apply (stored_same name). Qed.
Lemma holds_same name fs x made d : frame name fs x -> ~ has_dir fs name -> holds fs made d -> holds x made d.
Proof.
  intros (OK' & SO & ES) NH (OK & GS & CH & (d0 & F0 & S0) & ST).
  assert (EL : fs_latest x = fs_latest fs) by (eapply latest_same; eauto).
  split; [exact OK'|]. split; [unfold get_state in *; rewrite ES, EL; exact GS|].
  split; [eapply chain_same; eauto|]. split.
  - exists d0. rewrite EL. split; [eapply from_schema_same; eauto|exact S0].
  - intros n to H. destruct (ST n to H) as (d' & Sd & SS). exists d'. split; [eapply stored_same; eauto|exact SS].
Qed.

Lemma holds_step ls bs n to fs made d o fs' tr : listing ls -> NoDup (map b_name bs) -> holds fs made d ->
  ~ has_dir fs n -> wf_schema to -> settled to -> wf_schema d ->
  fs_create_to ls bs n (fs_latest fs) to fs = (o, fs', tr) ->
  (o = Ok true /\ ~ same_schema d to /\ holds fs' (made ++ [(n, to)]) to \/
   o <> Ok true /\ holds fs' made d /\ (o = Ok false -> same_schema d to)) /\
  same_outside n fs fs' /\ 
  Forall (fun x => torn_state x \/ holds x made d \/ (o = Ok true /\ x = fs')) tr.
Proof.
  intros PL NDb HO NH Wt St Wd H. pose proof HO as (OK & GS & CH & (d0 & F0 & S0) & ST).
  pose proof (from_schema_wf _ _ _ F0) as W0.
  destruct (fs_create_trace _ _ _ _ _ _ _ _ _ _ OK PL F0 H) as [R T].
  assert (T' : Forall (fun x => torn_state x \/ holds x made d \/ (o = Ok true /\ x = fs')) tr).
  { eapply Forall_impl; [|exact T]. cbn. intros x [F|[E [[X _]|X]]]; auto. right. left. eapply holds_same; eauto. }
  destruct o as [[]|e|].
  - destruct (fs_created _ _ _ _ _ _ _ _ _ OK PL NH GS CH F0 Wt St NDb H)
      as (N & OK' & SO & GS' & EL & CH' & (d' & SS & Sd' & _) & _).
    split; [left|split; assumption]. split; [reflexivity|]. split.
    { intros X. apply N. eapply same_schema_trans; eauto. }
    split; [exact OK'|]. split; [exact GS'|]. split; [rewrite map_app; exact CH'|]. split.
    + exists d'. rewrite EL. split; [exact Sd'|exact SS].
    + intros m to' Hin. apply in_app_or in Hin as [Hin|[[= <- <-]|[]]]; [|eauto].
      destruct (ST m to' Hin) as (d1 & S1 & SS1). exists d1. split; [eapply stored_same; eauto|exact SS1].
  - destruct (fs_not_created _ _ _ _ _ _ _ _ _ OK PL F0 Wt H) as [-> SS].
    split; [right|split; [intros x _; reflexivity|assumption]]. split; [discriminate|]. split; [exact HO|]. intros _.
    eapply same_schema_trans; [|exact SS]. apply same_schema_sym, S0.
  - destruct R as [R|]; [|discriminate]. split; [right|split; [apply R|assumption]]. split; [discriminate|].
    split; [eapply holds_same; eauto|discriminate].
  - destruct R as [R|]; [|discriminate]. split; [right|split; [apply R|assumption]]. split; [discriminate|].
    split; [eapply holds_same; eauto|discriminate].
Qed.

Lemma made_of_app d a made to : forall b made', made_of d a made ->
  to = last (map snd made) d -> made_of to b made' -> made_of d (a ++ b) (made ++ made').
Proof.
  intros b made' H. induction H as [d|d n t steps made SS H IH|d n t steps made N H IH]; intros E H'; cbn.
  - cbn in E. now subst.
  - constructor; auto.
  - constructor 3; [assumption|]. apply IH; [|exact H']. subst to. cbn [map snd].
    destruct (map snd made) eqn:Em; [reflexivity|]. rewrite <- Em in *. cbn [last]. rewrite Em.
    clear. revert t a. induction l as [|x l IH]; intros t a; [reflexivity|]. cbn [last]. apply IH.
Qed.

Lemma fs_history ls bs steps : listing ls -> NoDup (map b_name bs) -> forall fs made d u fs' tr,
  holds fs made d -> wf_schema d -> NoDup (map fst steps) ->
  (forall n to, In (n, to) steps -> ~ has_dir fs n /\ wf_schema to /\ settled to) ->
  fs_create_all ls bs steps fs = (u, fs', tr) ->
  (u = Ok tt -> exists made', made_of d steps made' /\ exists d', holds fs' (made ++ made') d') /\
  Forall (fun x => torn_state x \/ exists k made' d', made_of d (firstn k steps) made' /\ holds x (made ++ made') d') tr.
Proof.
  intros PL NDb. induction steps as [|[n to] steps IH]; intros fs made d u fs' tr HO Wd ND HS H.
  - cbn in H. injection H as <- <- <-. split; [|constructor]. intros _. exists []. split; [constructor|].
    exists d. now rewrite app_nil_r.
  - cbn [fs_create_all] in H. unfold fbind at 1, fread in H.
    destruct (HS n to (or_introl eq_refl)) as (NH & Wt & St). cbn [map fst] in ND. inversion_clear ND as [|? ? Nn ND'].
    destruct (fs_create_to ls bs n (fs_latest fs) to fs) as [[o fs1] t1] eqn:E1.
    destruct (holds_step _ _ _ _ _ _ _ _ _ _ PL NDb HO NH Wt St Wd E1) as (R & SO & T).
    unfold fbind in H. rewrite E1 in H.
    assert (T0 : Forall (fun x => torn_state x \/ exists k made' d', made_of d (firstn k ((n, to) :: steps)) made' /\ holds x (made ++ made') d') t1).
    { eapply Forall_impl; [|exact T]. intros x [X|[X|[-> ->]]]; [auto| |].
      - right. exists 0, [], d. rewrite app_nil_r. split; [constructor|exact X].
      - right. destruct R as [(_ & N & HO')|[X _]]; [|congruence].
        exists 1, [(n, to)], to. split; [|exact HO']. cbn. constructor; [exact N|constructor]. }
    assert (HS' : forall m to', In (m, to') steps -> ~ has_dir fs1 m /\ wf_schema to' /\ settled to').
    { intros m to' Hm. destruct (HS m to' (or_intror Hm)) as (A & B & C). split; [|auto]. intros D. apply A.
      apply (dir_same n fs fs1) in D; auto. intros ->. apply Nn. apply in_map_iff. exists (n, to'). auto. }
    destruct o as [b|e|].
    2,3: injection H as <- <- <-; split; [discriminate|exact T0].
    destruct (fs_create_all ls bs steps fs1) as [[o2 fs2] t2] eqn:E2. injection H as <- <- <-.
    destruct b.
    + destruct R as [(_ & N & HO')|[X _]]; [|congruence].
      destruct (IH _ _ _ _ _ _ HO' Wt ND' HS' E2) as (A & B). split.
      * intros X. destruct (A X) as (made' & M & d' & HO2). exists ((n, to) :: made'). split; [now constructor|].
        exists d'. now rewrite <- app_assoc in HO2.
      * apply Forall_app. split; [exact T0|]. eapply Forall_impl; [|exact B].
        intros x [X|(k & made' & d' & M & HO2)]; [auto|]. right. exists (Datatypes.S k), ((n, to) :: made'), d'.
        split; [now constructor|]. now rewrite <- app_assoc in HO2.
    + destruct R as [(X & _)|(_ & HO' & SS)]; [discriminate|]. specialize (SS eq_refl).
      destruct (IH _ _ _ _ _ _ HO' Wd ND' HS' E2) as (A & B). split.
      * intros X. destruct (A X) as (made' & M & d' & HO2). exists made'. split; [now constructor|]. eauto.
      * apply Forall_app. split; [exact T0|]. eapply Forall_impl; [|exact B].
        intros x [X|(k & made' & d' & M & HO2)]; [auto|]. right. exists (Datatypes.S k), made', d'.
        split; [now constructor|exact HO2].
Qed.
Lemma holds_fresh fs : fs_fresh fs -> holds fs [] adb_new.
Proof.
  intros [OK E]. assert (L : fs_latest fs = None) by (unfold fs_latest, get_state; now rewrite E).
  split; [exact OK|]. split; [rewrite L; unfold get_state; now rewrite E|]. split; [unfold chain; cbn; now rewrite L|].
  split; [|intros n to []]. exists adb_new. rewrite L. split; [reflexivity|]. split; intros n t [].
Qed.
Lemma fs_history_fresh ls bs steps fs u fs' tr : listing ls -> NoDup (map b_name bs) ->
  fs_fresh fs -> NoDup (map fst steps) ->
  (forall n to, In (n, to) steps -> fs_get fs n = None /\ wf_schema to /\ settled to) ->
  fs_create_all ls bs steps fs = (u, fs', tr) ->
  (u = Ok tt -> exists made, made_of adb_new steps made /\ holds_migrations fs' made) /\
  Forall (fun x => torn_state x \/ exists k made, made_of adb_new (firstn k steps) made /\ holds_migrations x made) tr.
Proof.
  intros PL NDb F ND HS H. apply (fs_history ls bs steps PL NDb fs [] adb_new) in H as [A B].
  - split.
    + intros X. destruct (A X) as (made & M & d' & HO). exists made. split; [exact M|]. eapply holds_migrations_of, HO.
    + eapply Forall_impl; [|exact B]. intros x [X|(k & made & d' & M & HO)]; [auto|]. right. exists k, made.
      split; [exact M|]. eapply holds_migrations_of, HO.
  - apply holds_fresh, F.
  - apply empty_wf.
  - exact ND.
  - intros n to Hn. destruct (HS n to Hn) as (A & B & C). split; [|auto]. intros [dir D]. unfold fs_get in A. now rewrite D in A.
Qed.

(** * Views for copying *)
Lemma replace_table_sorted d t : msorted (a_tables d) -> msorted (a_tables (replace_table d t)).
Proof. intros S. now apply mput_sorted. Qed.
Lemma ofold_inv {A B} (P : B -> Prop) (f : B -> A -> outcome B) l : (forall b x b', P b -> f b x = Ok b' -> P b') ->
  forall b b', P b -> ofold f l b = Ok b' -> P b'.
Proof.
  intros H. induction l as [|x l IH]; intros b b' Hb; cbn; [intros [= <-]; exact Hb|].
  destruct (f b x) as [b1| |] eqn:E; cbn; try discriminate. apply IH. eauto.
Qed.
Lemma fs_result ls n fs d : fs_read_db ls n fs = Ok d -> resolution_result d.
Proof.
  unfold fs_read_db. destruct (read_info n fs) as [i| |]; cbn [obind]; try discriminate.
  set (P := fun d : ADB => msorted (a_tables d) /\ msorted (a_types d)).
  assert (R : forall db t, P db -> P (replace_table db t)) by (intros db t [A B]; split; [now apply replace_table_sorted|exact B]).
  destruct (ofold _ (in_bases i) adb_new) as [d1| |] eqn:E1; cbn [obind]; try discriminate.
  assert (P1 : P d1).
  { apply (fun H Hb => ofold_inv P _ _ H _ _ Hb E1); [|split; constructor]. cbn. intros b [x y] b' Hb.
    cbn [fst snd]. destruct (read_table y (table_file x) fs) as [v| |]; cbn [omap obind]; try discriminate. intros Eb. injection Eb as <-. apply R, Hb. }
  destruct (ofold (fs_entry n fs) _ d1) as [d2| |] eqn:E2; cbn [obind]; try discriminate.
  assert (P2 : P d2).
  { apply (fun H => ofold_inv P _ _ H _ _ P1 E2). intros b x b' Hb. unfold fs_entry.
    destruct (ends_with x ".table").
    - destruct (read_table n x fs) as [v| |]; cbn [omap obind]; try discriminate. intros Eb. injection Eb as <-. apply R, Hb.
    - destruct (String.eqb x "types.json"); [|now intros [= <-]].
      destruct (get_file n "types.json" fs) as [[]|]; try discriminate. intros [= <-].
      clear - Hb. revert b Hb. induction ts as [|[k t] ts IH]; intros b Hb; cbn [fold_left]; [exact Hb|].
      apply IH. destruct Hb as [A B]. split; [exact A|]. cbn. now apply mput_sorted. }
  destruct (resolve_types d2) as [[d3 r]| |] eqn:E3; cbn [obind]; try discriminate.
  destruct r as [[]| |]; cbn [obind]; try discriminate. intros [= <-]. exists d2. destruct P2. auto.
Qed.
Lemma mem_result m d : msorted (a_tables (mm_db m)) -> msorted (a_types (mm_db m)) -> mm_read_db m = Ok d -> resolution_result d.
Proof.
  intros A B. unfold mm_read_db. destruct (resolve_types (mm_db m)) as [[d3 r]| |] eqn:E3; cbn [obind]; try discriminate.
  destruct r as [[]| |]; cbn [obind]; try discriminate. intros [= <-]. exists (mm_db m). auto.
Qed.

(** A migration based on another one than the latest does not move it. *)
Lemma mem_add_other s m l : mem_wf s -> mem_latest s = Some l -> mm_from m <> Some (mm_name l) ->
  mm_name m <> mm_name l -> mem_latest (mem_add s m) = Some l.
Proof.
  intros W E F N. assert (E2 : ms_latest s = Some (mm_name l)) by (now apply mem_latest_name).
  unfold mem_latest in *. cbn [ms_latest mem_add]. rewrite E2 in *.
  assert (match mm_from m with None => false | Some n => String.eqb n (mm_name l) end = false) as ->.
  { destruct (mm_from m) as [n|]; [|reflexivity]. apply String.eqb_neq. congruence. }
  rewrite mem_add_get by exact W. rewrite (proj2 (String.eqb_neq _ _)); [exact E|congruence].
Qed.

Lemma fs_crash ls bs name to fs d l o fs' tr : fs_ok fs -> listing ls ->
  ~ has_dir fs name -> get_state fs = Ok (fs_latest fs) -> chain (fs_coll fs) l ->
  from_schema fs (fs_latest fs) d -> wf_schema to -> settled to -> NoDup (map b_name bs) ->
  fs_create_to ls bs name (fs_latest fs) to fs = (o, fs', tr) ->
  forall x, In x (tr ++ [fs']) ->
    intact fs x l \/
    (torn_state x /\ same_outside name fs x) \/
    (chain (fs_coll x) (l ++ [name]) /\ same_outside name fs x /\
     exists d', fs_schema x name d' /\ same_schema d' to).
Proof.
  intros OK PL NH GS CH S Wt St ND H x Hx.
  assert (I : forall y, frame name fs y -> intact fs y l).
  { intros y (_ & SO & ES). now apply (intact_same name). }
  destruct (fs_create_trace _ _ _ _ _ _ _ _ _ _ OK PL S H) as [R T].
  assert (C : o = Ok true -> x = fs' -> chain (fs_coll x) (l ++ [name]) /\ same_outside name fs x /\
     exists d', fs_schema x name d' /\ same_schema d' to).
  { intros -> ->. destruct (fs_created ls bs name to fs d l fs' tr OK PL NH GS CH S Wt St ND H)
      as (_ & OK' & SO & _ & _ & CH' & (d' & SS & Sd' & _) & _).
    split; [exact CH'|]. split; [exact SO|]. exists d'. split; [now apply stored_schema|exact SS]. }
  apply in_app_or in Hx as [Hx|[<-|[]]].
  - rewrite Forall_forall in T. destruct (T x Hx) as [F|[E [X|X]]]; auto.
  - destruct R as [R|R]; auto.
Qed.
Lemma fs_embed ls bs name to fs d l fs' tr : fs_ok fs -> listing ls ->
  ~ has_dir fs name -> get_state fs = Ok (fs_latest fs) -> chain (fs_coll fs) l ->
  from_schema fs (fs_latest fs) d -> wf_schema to -> settled to -> NoDup (map b_name bs) ->
  fs_create_to ls bs name (fs_latest fs) to fs = (Ok true, fs', tr) ->
  exists m d', copy_migration (fs_view ls name fs') (mem_migration name) = Ok m /\
    mm_name m = name /\ mm_from m = fs_latest fs /\ mm_read_db m = Ok d' /\ same_schema d' to /\
    (forall b, In b bs -> exists up down, scripts_of bs (fs_latest fs) d to b up down /\
       mget (b_name b) (mm_up m) = Some (with_newline up) /\ mget (b_name b) (mm_down m) = Some (with_newline down)).
Proof.
  intros OK PL NH GS CH S Wt St ND H.
  destruct (fs_created ls bs name to fs d l fs' tr OK PL NH GS CH S Wt St ND H)
    as (_ & OK' & SO & _ & EL & CH' & (d' & SS & Sd' & _) & B & Q).
  assert (F : omap in_from (read_info name fs') = Ok (fs_latest fs)).
  { unfold chain in *. cbn [cl_latest fs_coll] in *. rewrite EL in CH'.
    destruct (read_info name fs') as [i| |] eqn:Ei; cbn in B; try discriminate. cbn. f_equal.
    inversion CH' as [m F Em El|m p l0 (n & E1 & E2) C Em El].
    - unfold is_first in F. cbn in F. rewrite Ei in F. injection F as F.
      destruct l as [|y [|]]; try discriminate. destruct (fs_latest fs) as [f|]; [|exact F].
      apply chain_to_last in CH as [a Ea]. destruct a; discriminate.
    - cbn in E1, E2. rewrite Ei in E1. injection E1 as E1. rewrite E1. apply app_inj_tail in El as [-> _].
      apply fs_get_dir in E2 as [-> _]. apply chain_to_last in C as [a Ea].
      destruct (fs_latest fs) as [f|]; [|subst l; destruct a; discriminate].
      apply chain_to_last in CH as [a' Ea']. rewrite Ea in Ea'. apply app_inj_tail in Ea' as [_ ->]. reflexivity. }
  pose proof (stored_schema _ _ _ OK' Sd' ls PL) as RD.
  destruct (copy_preserves (fs_view ls name fs') name (fs_latest fs) d' (map b_name bs) F RD B ND) as (m & E & En & Ef & _ & Er & Hs & _).
  - intros b Hb. apply in_map_iff in Hb as (b' & <- & Hb). destruct (Q b' Hb) as (u & w & _ & E1 & E2). cbn. eauto.
  - eapply fs_result, RD.
  - apply Sd'.
  - apply Sd'.
  - exists m, d'. repeat (split; [assumption|]). intros b Hb. destruct (Q b Hb) as (u & w & SC & E1 & E2).
    exists u, w. split; [exact SC|]. apply (Hs (b_name b) _ _ (in_map _ _ _ Hb)); assumption.
Qed.
