(** Proofs about regenerating, collapsing, detaching and making migrations. *)
From Verif Require Import Base SqlVal Adb AdbSpec AdbProofs ResolveSpec Chain ChainSpec ChainProofs.
From Verif Require Import Store StoreSpec StoreProofs FsStore FsSpec FsProofs Cli Maint MaintSpec MaintProofs.
From Coq Require Import Permutation.

(** * Which tables a migration writes *)

Lemma cols_inj t c c' : NoDup (map c_name (t_cols t)) -> In c (t_cols t) -> In c' (t_cols t) -> c_name c = c_name c' -> c = c'.
Proof.
  induction (t_cols t) as [|x l IH]; [intros _ []|]. cbn [map]. intros ND H H' E. apply NoDup_cons_iff in ND as [N ND].
  destruct H as [<-|H], H' as [<-|H']; auto.
  - destruct N. rewrite E. now apply in_map.
  - destruct N. rewrite <- E. now apply in_map.
Qed.
Lemma touches_iff dp to ops x t : wf_schema dp -> wf_schema to -> diff_out dp to = Ok ops ->
  In (x, t) (a_tables to) -> (touches ops t = false <-> kept_table dp x t).
Proof.
  intros Wo Wn E Ht. destruct (proj2 Wn x t Ht) as [En Wt]. unfold touches. rewrite En. split.
  - intros T. apply (untouched dp to ops); auto. intros H. apply kmem_In in H. congruence.
  - intros (t0 & H0 & N & S1 & S2). destruct (kmem x (flat_map op_modifies ops)) eqn:K; [exfalso|reflexivity].
    apply kmem_In, in_flat_map in K as (op & Hop & Hx). apply (diff_op_In dp to ops op E Wo Wn) in Hop.
    assert (U : forall t', In (x, t') (a_tables dp) -> t' = t0).
    { intros t' H'. apply In_mget in H'; [|apply Wo]. apply In_mget in H0; [|apply Wo]. congruence. }
    assert (V : forall t', In (x, t') (a_tables to) -> t' = t).
    { intros t' H'. apply In_mget in H'; [|apply Wn]. apply In_mget in Ht; [|apply Wn]. congruence. }
    destruct op as [u|u|u|n|n c|n c|n oc nc|u]; cbn [op_modifies In] in Hx; try contradiction; destruct Hx as [Hx|[]]; cbn [op_justified] in Hop.
    + destruct Hop as [_ Hop]. apply Hop. rewrite Hx. eexists; eauto.
    + subst n. destruct Hop as (t' & u & H' & Hu & Hc & Nc). apply U in H'. apply V in Hu. subst.
      destruct (S2 c Hc) as (c' & Hc' & SC). apply Nc. exists c'. split; [exact Hc'|apply SC].
    + subst n. destruct Hop as (t' & u & H' & Hu & (c' & Hc & Ec) & Nc). apply U in H'. apply V in Hu. subst.
      destruct (S1 c' Hc) as (c2 & Hc2 & SC). apply Nc. exists c2. split; [exact Hc2|]. symmetry. apply SC.
    + subst n. destruct Hop as (t' & u & H' & Hu & Ho & Hn & Ec & NS). apply U in H'. apply V in Hu. subst t' u.
      destruct (S1 oc Ho) as (c2 & Hc2 & SC). apply NS.
      assert (c2 = nc) as ->; [|exact SC].
      apply (cols_inj t); auto; [apply Wt|]. rewrite <- Ec. symmetry. apply SC.
    + destruct Hop as (_ & Hop & _). apply Hop. rewrite Hx. eexists; eauto.
Qed.
Lemma same_table_refl t : wf_table t -> same_table t t.
Proof.
  intros [_ W]. split; [reflexivity|]. split; intros c Hc; exists c; (split; [exact Hc|]); apply same_column_refl; eauto.
Qed.
(** Tables taken over unchanged stay as they are. *)
Lemma merged_same dp to ops : wf_schema dp -> wf_schema to -> a_types to = [] -> diff_out dp to = Ok ops ->
  (forall x t, In (x, t) (a_tables to) -> kept_table dp x t -> In (x, t) (a_tables dp)) ->
  merged (touches ops) dp to = to.
Proof.
  intros Wd Wt Ty E K. destruct to as [ts ty]. cbn [a_tables a_types] in *. subst ty. unfold merged. cbn [a_tables].
  f_equal. rewrite <- (map_id ts) at 2. apply map_ext_in. intros [x t] H. cbn [fst snd]. f_equal.
  destruct (touches ops t) eqn:T; [reflexivity|].
  apply (touches_iff dp _ ops x t Wd Wt E H), K, In_mget in T; [|apply Wd|exact H]. now rewrite T.
Qed.

(** * The layout only depends on some of the files *)

Lemma laid_alike fs fs' earlier dp n d :
  has_dir fs' n ->
  (forall k, ends_with k ".table" = true \/ k = "types.json"%string -> get_file n k fs' = get_file n k fs) ->
  (forall b x f, In b earlier -> get_file b (table_file x) fs = Some f -> get_file b (table_file x) fs' = Some f) ->
  omap in_from (read_info n fs') = omap in_from (read_info n fs) ->
  omap in_bases (read_info n fs') = omap in_bases (read_info n fs) ->
  laid_out fs earlier dp n d -> laid_out fs' earlier dp n d.
Proof.
  intros HD G GB EF EB [[D W T ST NT F (i & I & SB & B & C)] LF LB LD LC LK].
  assert (GT : forall x, get_file n (table_file x) fs' = get_file n (table_file x) fs) by (intros x; apply G; left; apply table_file_ends).
  rewrite I in EB. cbn [omap obind] in EB. destruct (read_info n fs') as [i'| |] eqn:I'; cbn in EB; try discriminate. injection EB as EB.
  split.
  - split; auto.
    + rewrite G; auto.
    + intros k f Hf Hk. rewrite G in Hf; auto.
    + exists i'. rewrite EB. split; [exact I'|]. split; [exact SB|]. split.
      * intros x b Hx. destruct (B x b Hx) as (B1 & t & B2 & B3). rewrite GT. split; [exact B1|]. exists t. split; [exact B2|].
        apply GB; [|exact B3]. eapply LB; eauto.
      * intros x t Hx. rewrite GT. auto.
  - rewrite I', EF. exact LF.
  - intros i2 x b Hi Hx. rewrite I' in Hi. injection Hi as <-. rewrite EB in Hx. eapply LB; eauto.
  - exact LD.
  - intros x t Hx N. rewrite GT. auto.
  - intros x t Hx N. rewrite GT. auto.
Qed.
Lemma laid_chain_alike fs fs' r : forall earlier dp,
  (forall n, In n (map fst r) -> has_dir fs' n /\
     (forall k, ends_with k ".table" = true \/ k = "types.json"%string -> get_file n k fs' = get_file n k fs) /\
     omap in_from (read_info n fs') = omap in_from (read_info n fs) /\
     omap in_bases (read_info n fs') = omap in_bases (read_info n fs)) ->
  (forall b x f, In b earlier -> get_file b (table_file x) fs = Some f -> get_file b (table_file x) fs' = Some f) ->
  laid_chain fs earlier dp r -> laid_chain fs' earlier dp r.
Proof.
  induction r as [|[n d] r IH]; intros earlier dp H GB L; [constructor|].
  inversion L as [|? ? ? ? ? LO LR]; subst. destruct (H n (or_introl eq_refl)) as (A & B & C & D).
  constructor; [now apply (laid_alike fs)|]. apply IH; [intros m Hm; apply H; now right| |exact LR].
  intros b x f Hb Hf. apply in_app_or in Hb as [Hb|[<-|[]]]; [auto|]. rewrite B; [exact Hf|]. left. apply table_file_ends.
Qed.
(** Everything in the migrations concerned is the same. *)
Lemma laid_chain_same fs fs' r earlier dp :
  (forall n, In n (earlier ++ map fst r) -> mget n (fs_dirs fs') = mget n (fs_dirs fs)) ->
  laid_chain fs earlier dp r -> laid_chain fs' earlier dp r.
Proof.
  intros H L. assert (G : forall n k, In n (earlier ++ map fst r) -> get_file n k fs' = get_file n k fs).
  { intros n k Hn. unfold get_file. now rewrite (H n Hn). }
  assert (D : forall n, In n (map fst r) -> has_dir fs n).
  { clear H G. induction L as [|earlier dp n d r LO LR IH]; intros m Hm; [destruct Hm|].
    destruct Hm as [<-|Hm]; [apply LO|auto]. }
  apply (laid_chain_alike fs); [|intros b x f Hb Hf; rewrite G; [exact Hf|apply in_or_app; auto]|exact L].
  intros n Hn. assert (Hn' : In n (earlier ++ map fst r)) by (apply in_or_app; auto).
  split; [|split; [intros; now apply G|]].
  - unfold has_dir. rewrite (H n Hn'). apply D, Hn.
  - rewrite (read_info_same n fs fs') by (now apply G). auto.
Qed.
Lemma last_cons {A} (x d : A) r : last (x :: r) d = last r x.
Proof. revert x d. induction r as [|y r IH]; intros x d; [reflexivity|]. change (last (y :: r) d = last (y :: r) x). now rewrite !IH. Qed.
Lemma last_some {A} (l : list A) x : last (map Some (l ++ [x])) None = Some x.
Proof. rewrite map_app. apply last_last. Qed.
Lemma laid_chain_app fs a : forall earlier dp b, laid_chain fs earlier dp (a ++ b) <->
  laid_chain fs earlier dp a /\ laid_chain fs (earlier ++ map fst a) (last (map snd a) dp) b.
Proof.
  induction a as [|[n d] a IH]; intros earlier dp b.
  - cbn. rewrite app_nil_r. split; [intros H; split; [constructor|exact H]|now intros [_ H]].
  - cbn [app map fst snd]. rewrite last_cons. split.
    + intros H. inversion H as [|? ? ? ? ? LO LR]; subst. apply IH in LR as [L1 L2]. split; [now constructor|].
      now rewrite <- app_assoc in L2.
    + intros [H L2]. inversion H as [|? ? ? ? ? LO LR]; subst. constructor; [exact LO|]. apply IH. split; [exact LR|].
      now rewrite <- app_assoc.
Qed.

(** * Creating a migration in a blank directory *)

Lemma laid_created ls bs name earlier to fs dp calls u fs6 tr :
  let from := last (map Some earlier) None in
  fs_ok fs -> listing ls -> blank name fs -> ~ In name earlier -> from_schema fs from dp ->
  (forall f fi x b, from = Some f -> read_info f fs = Ok fi -> mget x (in_bases fi) = Some b -> In b earlier) ->
  wf_schema to -> settled to -> NoDup (map b_name bs) ->
  create_calls bs from dp to = Ok (Some calls) -> fs_calls name calls fs = (Ok u, fs6, tr) ->
  exists d', same_schema d' to /\ frame name fs fs6 /\ laid_out fs6 earlier dp name d' /\
    (a_types to = [] -> (forall x t, In (x, t) (a_tables to) -> kept_table dp x t -> In (x, t) (a_tables dp)) -> d' = to) /\
    omap in_backends (read_info name fs6) = Ok (map b_name bs) /\
    (forall b, In b bs -> exists up down, scripts_of bs from dp to b up down /\
       read_sql name (b_name b) "up" fs6 = Ok (Some (with_newline up)) /\
       read_sql name (b_name b) "down" fs6 = Ok (Some (with_newline down))) /\
    (forall k f, get_file name k fs6 = Some f -> k = "info.json"%string \/ ends_with k ".table" = true \/
       exists b dir, In b bs /\ (dir = "up"%string \/ dir = "down"%string) /\ k = sql_name (b_name b) dir).
Proof.
  intros from OK PL Bl NE FS Bf Wt St ND EC H.
  assert (Lin : forall f, from = Some f -> In f earlier).
  { intros f Ef. unfold from in Ef. clear - Ef. destruct earlier as [|x l] using rev_ind; [discriminate|].
    rewrite last_some in Ef. injection Ef as <-. apply in_or_app. cbn. auto. }
  assert (NF : from <> Some name) by (intros X; exact (NE (Lin _ X))).
  pose proof (from_schema_wf _ _ _ FS) as Wd.
  destruct (create_core ls bs name from to fs dp calls u fs6 tr OK PL Bl NF FS Wt St ND EC H)
    as (ops & Ed & N & FR & SD & SS & TO & UN & I6 & B6 & Q6 & F6 & BB).
  exists (merged (touches ops) dp to). split; [exact SS|]. split; [exact FR|]. split; [|split; [|auto]].
  - split.
    + exact SD.
    + exact I6.
    + intros i x b Hi Hx. destruct (BB i x b Hi Hx) as (f & Ef & [->|(fi & Efi & Gb)]); [auto|eauto].
    + intros X. apply N. eapply same_schema_trans; eauto.
    + intros x t Hx NK. apply merged_In in Hx as (t1 & H1 & ->); [|apply Wt].
      destruct (touches ops t1) eqn:T; [apply TO with (n := x); auto; fail|].
      exfalso. apply NK. pose proof T as T'. apply (touches_iff dp to ops x t1 Wd Wt Ed H1) in T' as (t0 & H0 & S0).
      rewrite (In_mget _ _ _ (proj1 Wd) H0). exists t0. split; [exact H0|]. apply same_table_refl. apply (proj2 Wd x t0 H0).
    + intros x t Hx KT. apply merged_In in Hx as (t1 & H1 & ->); [|apply Wt].
      destruct (touches ops t1) eqn:T.
      { exfalso. apply (touches_iff dp to ops x t1 Wd Wt Ed H1) in KT. congruence. }
      pose proof T as T'. apply (touches_iff dp to ops x t1 Wd Wt Ed H1) in T' as (t0 & H0 & S0).
      rewrite (In_mget _ _ _ (proj1 Wd) H0). split; [|exact H0]. eapply UN; eauto.
  - intros Ty K. now apply merged_same.
Qed.

(** * Emptying a directory *)

Lemma delete_entry_frame n k : framed n (delete_entry n k).
Proof.
  apply framed_bind; [apply framed_read|]. intros [f|]; [|apply framed_lift].
  apply framed_step. intros fs OK. now apply del_file_frame.
Qed.
Lemma delete_entries_frame n l : framed n (delete_entries n l).
Proof.
  induction l as [|k l IH]; cbn [delete_entries]; [apply framed_ret|]. apply framed_bind; [|intros _; exact IH].
  destruct (String.eqb k "info.json"); [|apply delete_entry_frame].
  apply framed_bind; [apply framed_read|]. intros i. apply write_contents_frame.
Qed.
Lemma delete_entries_get n l : forall fs u fs' tr, fs_ok fs -> has_dir fs n -> delete_entries n l fs = (Ok u, fs', tr) ->
  has_dir fs' n /\
  (forall k, k <> "info.json"%string -> get_file n k fs' = if existsb (String.eqb k) l then None else get_file n k fs) /\
  (if existsb (String.eqb "info.json") l
   then exists i, read_info n fs = Ok i /\ read_info n fs' = Ok {| in_from := in_from i; in_bases := []; in_backends := [] |}
   else read_info n fs' = read_info n fs).
Proof.
  induction l as [|e l IH]; intros fs u fs' tr OK HD H.
  - cbn in H. injection H as <- <- <-. cbn. auto.
  - cbn [delete_entries] in H. apply fbind_ok in H as (v & fs1 & t1 & t2 & E1 & E2 & ->).
    assert (OK1 : fs_ok fs1).
    { destruct (String.eqb e "info.json").
      - apply (framed_bind n _ _ (framed_read n _) (fun i => write_contents_frame n _ _) fs _ _ _ OK) in E1. apply E1.
      - apply (delete_entry_frame n e fs _ _ _ OK) in E1. apply E1. }
    cbn [existsb]. destruct (String.eqb_spec e "info.json") as [->|Ne].
    + apply fbind_ok in E1 as (i & f0 & t3 & t4 & Ei & Ew & ->). apply fread_ok in Ei as (Ei & -> & _).
      destruct (write_contents_get _ _ _ _ _ _ _ OK Ew) as (f' & Ef & HD1 & G1). injection Ef as <-.
      destruct (IH _ _ _ _ OK1 HD1 E2) as (HD2 & G2 & I2).
      assert (R1 : read_info n fs1 = Ok {| in_from := in_from i; in_bases := []; in_backends := [] |}).
      { apply read_info_set. rewrite G1. reflexivity. }
      split; [exact HD2|]. split.
      * intros k Nk. rewrite (G2 k Nk), (G1 k), (proj2 (String.eqb_neq _ _) Nk). reflexivity.
      * cbn. exists i. split; [exact Ei|]. destruct (existsb _ l).
        -- destruct I2 as (i2 & E & ->). rewrite R1 in E. injection E as <-. reflexivity.
        -- now rewrite I2.
    + unfold delete_entry in E1. apply fbind_ok in E1 as (o & f0 & t3 & t4 & Eo & Ed & ->). apply fread_ok in Eo as (Eo & -> & _).
      destruct o as [f|]; [|discriminate]. unfold fstep in Ed. injection Ed as _ <- _.
      destruct (del_file_get n e fs OK HD) as [HD1 G1].
      destruct (IH _ _ _ _ OK1 HD1 E2) as (HD2 & G2 & I2).
      split; [exact HD2|]. split.
      * intros k Nk. rewrite (G2 k Nk), (G1 k). destruct (String.eqb_spec k e) as [->|]; cbn; [|reflexivity].
        destruct (existsb (String.eqb e) l); reflexivity.
      * rewrite (proj2 (String.eqb_neq _ _)) by congruence. cbn.
        rewrite (read_info_same n fs (del_file n e fs)) in I2; [exact I2|].
        rewrite G1, (proj2 (String.eqb_neq _ _)); congruence.
Qed.
Lemma delete_db_blank ls n fs u fs' tr : listing ls -> fs_ok fs -> fs_delete_db ls n fs = (Ok u, fs', tr) ->
  frame n fs fs' /\ has_dir fs' n /\ blank n fs'.
Proof.
  intros PL OK H. unfold fs_delete_db in H. apply fbind_ok in H as (l & f0 & t1 & t2 & E1 & E2 & ->).
  apply fread_ok in E1 as (E1 & -> & _). destruct (mget n (fs_dirs fs)) as [dir|] eqn:ED; [|discriminate]. injection E1 as <-.
  assert (HD : has_dir fs n) by (eexists; eauto).
  assert (L : forall k, existsb (String.eqb k) (ls (mkeys dir)) = true <-> exists f, get_file n k fs = Some f).
  { intros k. unfold get_file. rewrite ED. rewrite existsb_exists. split.
    - intros (y & Hy & E). apply String.eqb_eq in E as <-. apply mget_keys. eapply Permutation_in; [apply PL|exact Hy].
    - intros Hk. apply mget_keys in Hk. exists k. split; [|apply String.eqb_refl].
      eapply Permutation_in; [apply Permutation_sym, PL|exact Hk]. }
  split; [exact (proj1 (delete_entries_frame n _ fs _ _ _ OK E2))|].
  destruct (delete_entries_get _ _ _ _ _ _ OK HD E2) as (HD' & G & I). split; [exact HD'|].
  destruct (existsb (String.eqb "info.json") (ls (mkeys dir))) eqn:EI.
  - destruct I as (i & _ & I). exists (in_from i). split; [exact I|]. intros k f Nk. cbn. split; [|intros []].
    intros Hf. rewrite (G k Nk) in Hf. destruct (existsb (String.eqb k) _) eqn:EK; [discriminate|].
    rewrite (proj2 (L k)) in EK; [discriminate|eauto].
  - exists None. split.
    + rewrite I. unfold read_info. destruct (get_file n "info.json" fs) as [f|] eqn:EF; [|reflexivity].
      rewrite (proj2 (L _)) in EI; [discriminate|eauto].
    + intros k f Nk. cbn. split; [|intros []].
      intros Hf. rewrite (G k Nk) in Hf. destruct (existsb (String.eqb k) _) eqn:EK; [discriminate|].
      rewrite (proj2 (L k)) in EK; [discriminate|eauto].
Qed.

(** * Regenerating *)

Lemma fs_add_other n fs l o : get_state fs = Ok (Some l) -> omap in_from (read_info n fs) = Ok o -> o <> Some l ->
  fs_add n fs = (Ok tt, fs, []).
Proof.
  intros G I N. unfold fs_add, fbind, fread. destruct (read_info n fs) as [i| |]; cbn in I; try discriminate. injection I as <-.
  rewrite G. cbn. destruct (in_from i) as [p|]; [|reflexivity]. rewrite (proj2 (String.eqb_neq _ _)); [reflexivity|congruence].
Qed.
(** A creation that succeeded. *)
Lemma create_ran ls bs name from to fs d fs' tr : fs_ok fs -> listing ls -> from_schema fs from d ->
  fs_create_to ls bs name from to fs = (Ok true, fs', tr) ->
  exists calls u fs6 t1 t2, create_calls bs from d to = Ok (Some calls) /\ fs_calls name calls fs = (Ok u, fs6, t1) /\
    fs_add name fs6 = (Ok tt, fs', t2).
Proof.
  intros OK PL S H. destruct (create_reads ls bs name from to fs d OK PL S) as (t0 & _ & E). rewrite E in H. clear E.
  unfold fbind at 1, flift in H.
  destruct (create_calls bs from d to) as [[calls|]| |] eqn:Ec; try discriminate.
  destruct (fs_calls name calls fs) as [[o1 fs1] t1] eqn:E1. unfold fbind at 1 in H. rewrite E1 in H.
  destruct o1 as [u| |]; try discriminate. unfold fbind at 1 in H. destruct (fs_add name fs1) as [[o2 fs2] t2] eqn:E2.
  destruct o2 as [[]| |]; try discriminate. cbn in H. injection H as <- _. exists calls, u, fs1, t1, t2. auto.
Qed.
Lemma laid_kept fs earlier dp n d : laid_out fs earlier dp n d ->
  forall x t, In (x, t) (a_tables d) -> kept_table dp x t -> In (x, t) (a_tables dp).
Proof. intros L x t H K. apply (lo_kept _ _ _ _ _ L x t H K). Qed.
(** Which table files a migration has is fixed by the schemas. *)
Lemma laid_tables fs fs' earlier dp n d k : laid_out fs earlier dp n d -> laid_out fs' earlier dp n d ->
  ends_with k ".table" = true -> get_file n k fs' = get_file n k fs.
Proof.
  assert (X : forall f1 f2 f, laid_out f1 earlier dp n d -> laid_out f2 earlier dp n d -> ends_with k ".table" = true ->
                get_file n k f1 = Some f -> get_file n k f2 = Some f).
  { intros f1 f2 f L1 L2 E H. destruct (st_files _ _ _ (lo_stored _ _ _ _ _ L1) k f H E) as (t & -> & -> & Ht).
    apply (lo_changed _ _ _ _ _ L2); [exact Ht|]. intros K. apply (lo_kept _ _ _ _ _ L1) in K as [K _]; [congruence|exact Ht]. }
  intros L L' E. destruct (get_file n k fs) as [f|] eqn:G; [eauto|].
  destruct (get_file n k fs') as [f|] eqn:G'; [|reflexivity]. rewrite <- G. symmetry. rewrite (X fs' fs f L' L E G'). reflexivity.
Qed.

Lemma regenerate_loop ls bs l : listing ls -> NoDup (map b_name bs) -> forall r earlier dp fs u fs' tr,
  fs_ok fs -> from_schema fs (last (map Some earlier) None) dp ->
  (forall f fi x b, last (map Some earlier) None = Some f -> read_info f fs = Ok fi -> mget x (in_bases fi) = Some b -> In b earlier) ->
  NoDup (earlier ++ map fst r) -> get_state fs = Ok (Some l) ->
  (r <> [] -> ~ In l (earlier ++ removelast (map fst r))) ->
  laid_chain fs earlier dp r ->
  regenerate_each ls bs (last (map Some earlier) None) (map fst r) fs = (Ok u, fs', tr) ->
  fs_ok fs' /\ fs_state fs' = fs_state fs /\
  (forall m, ~ In m (map fst r) -> mget m (fs_dirs fs') = mget m (fs_dirs fs)) /\
  laid_chain fs' earlier dp r /\ has_scripts fs' bs earlier dp r.
Proof.
  intros PL NB. induction r as [|[m d] r IH]; intros earlier dp fs u fs' tr OK FS BF ND GS NL L H.
  - cbn in H. injection H as <- <- <-. repeat split; auto; try apply OK; constructor.
  - inversion L as [|? ? ? ? ? LO LR]; subst. cbn [map fst] in *. cbn [regenerate_each] in H.
    assert (Nm : ~ In m earlier /\ ~ In m (map fst r)).
    { apply NoDup_remove_2 in ND. split; intros X; apply ND, in_or_app; auto. }
    assert (Lin : forall f, last (map Some earlier) None = Some f -> In f earlier).
    { intros f Ef. clear - Ef. destruct earlier as [|x l] using rev_ind; [discriminate|].
      rewrite last_some in Ef. injection Ef as <-. apply in_or_app. cbn. auto. }
    apply fbind_ok in H as (to & f0 & t1 & t1' & E0 & H & ->).
    unfold fs_db, fbind in E0. rewrite ensure_dir_there in E0 by apply LO. unfold fread in E0. injection E0 as E0 <- _.
    rewrite (stored_schema fs m d OK (lo_stored _ _ _ _ _ LO) ls PL) in E0. injection E0 as <-.
    apply fbind_ok in H as (from & f0 & t2 & t2' & E1 & H & ->). apply fread_ok in E1 as (E1 & -> & _). injection E1 as E1.
    assert (EF : from = last (map Some earlier) None).
    { rewrite <- E1. destruct (last (map Some earlier) None) as [p|]; [|reflexivity]. apply fs_get_dir. split; [reflexivity|apply FS]. }
    clear E1. subst from.
    apply fbind_ok in H as (v & fs1 & t3 & t3' & E2 & H & ->).
    destruct (delete_db_blank _ _ _ _ _ _ PL OK E2) as (FR1 & HD1 & BL1). destruct FR1 as (OK1 & SO1 & ST1).
    apply fbind_ok in H as (cr & fs2 & t4 & t4' & E3 & H & ->).
    assert (FS1 : from_schema fs1 (last (map Some earlier) None) dp).
    { destruct (last (map Some earlier) None) as [p|] eqn:El; [|exact FS]. cbn in *. pose proof (Lin p eq_refl) as Hp.
      assert (Np : p <> m) by (intros ->; tauto). clear - FS SO1 BF Np Nm Hp.
      destruct FS as [D W T ST NT F (i & I & SB & B & C)]. split; auto.
      - now apply (dir_same m fs fs1).
      - now rewrite (get_file_same m fs fs1).
      - intros k f. rewrite (get_file_same m fs fs1); auto.
      - exists i. rewrite (read_info_same p fs fs1) by (now apply (get_file_same m)).
        split; [exact I|]. split; [exact SB|]. split.
        + intros x b Hx. rewrite (get_file_same m fs fs1) by auto. destruct (B x b Hx) as (B1 & t & B2 & B3). split; [exact B1|].
          exists t. split; [exact B2|]. rewrite (get_file_same m fs fs1); auto. intros ->. apply (proj1 Nm). eapply BF; eauto.
        + intros x t Hx. rewrite (get_file_same m fs fs1); auto. }
    assert (BF1 : forall f fi x b, last (map Some earlier) None = Some f -> read_info f fs1 = Ok fi -> mget x (in_bases fi) = Some b -> In b earlier).
    { intros f fi x b Ef Ei Hx. pose proof (Lin f Ef) as Hf. rewrite (read_info_same f fs fs1) in Ei; [eauto|].
      apply (get_file_same m); [exact SO1|]. intros ->. tauto. }
    pose proof (lo_stored _ _ _ _ _ LO) as SD.
    destruct cr; [|exfalso; destruct (fs_not_created _ _ _ _ _ _ _ _ _ OK1 PL FS1 (st_wf _ _ _ SD) E3) as [_ X]; exact (lo_differs _ _ _ _ _ LO X)].
    destruct (create_ran _ _ _ _ _ _ _ _ _ OK1 PL FS1 E3) as (calls & w & fs6 & t5 & t6 & C1 & C2 & C3).
    destruct (laid_created ls bs m earlier d fs1 dp calls w fs6 t5 OK1 PL BL1 (proj1 Nm) FS1 BF1 (st_wf _ _ _ SD) (st_settled _ _ _ SD) NB C1 C2)
      as (d' & _ & (OK6 & SO6 & ST6) & LO6 & Ed & BK & SC & FO).
    rewrite (Ed (st_types _ _ _ SD) (laid_kept _ _ _ _ _ LO)) in LO6. clear Ed d'.
    assert (GS6 : get_state fs6 = Ok (Some l)) by (unfold get_state in *; now rewrite ST6, ST1).
    rewrite (fs_add_other m fs6 l (last (map Some earlier) None) GS6 (lo_from _ _ _ _ _ LO6)) in C3.
    2:{ intros X. apply NL; [discriminate|]. apply in_or_app. auto. }
    injection C3 as <- _.
    assert (SO : forall x, x <> m -> mget x (fs_dirs fs6) = mget x (fs_dirs fs)) by (intros x Nx; now rewrite SO6, SO1).
    assert (LR6 : laid_chain fs6 (earlier ++ [m]) d r).
    { apply (laid_chain_alike fs); [| |exact LR].
      - intros n Hn. assert (Nn : n <> m) by (intros ->; tauto).
        assert (G : forall k, get_file n k fs6 = get_file n k fs) by (intros k; unfold get_file; now rewrite SO).
        split; [|split; [intros; apply G|rewrite (read_info_same n fs fs6) by apply G; auto]].
        unfold has_dir. rewrite SO by exact Nn. clear - LR Hn. revert Hn. induction LR as [|e dq n' d' r' LO' LR' IH']; intros Hn; [destruct Hn|].
        destruct Hn as [<-|Hn]; [apply LO'|auto].
      - intros b x f Hb Hf. destruct (string_dec b m) as [->|Nb].
        + rewrite (laid_tables fs fs6 earlier dp m d (table_file x) LO LO6 (table_file_ends x)). exact Hf.
        + unfold get_file in *. now rewrite SO. }
    assert (HR : regenerate_each ls bs (last (map Some (earlier ++ [m])) None) (map fst r) fs6 = (Ok u, fs', t4')).
    { rewrite last_some. exact H. }
    assert (ND6 : NoDup ((earlier ++ [m]) ++ map fst r)) by (rewrite <- app_assoc; exact ND).
    destruct (IH (earlier ++ [m]) d fs6 u fs' t4' OK6) as (OK' & ST' & SO' & LC' & HS'); auto.
    + rewrite last_some. cbn. apply LO6.
    + rewrite last_some. intros f fi x b [= <-] Ei Hx. apply in_or_app. left. eapply (lo_bases _ _ _ _ _ LO6); eauto.
    + intros Nr. rewrite <- app_assoc. cbn [app]. specialize (NL ltac:(discriminate)). destruct r as [|p r]; [congruence|exact NL].
    + assert (Gm : forall k, get_file m k fs' = get_file m k fs6) by (intros k; unfold get_file; now rewrite SO').
      split; [exact OK'|]. split; [congruence|]. split; [|split].
      * intros x Nx. rewrite SO'; [apply SO|]; intros X; apply Nx; cbn; auto.
      * constructor; [|exact LC']. assert (LX : laid_chain fs6 earlier dp [(m, d)]) by (constructor; [exact LO6|constructor]).
        apply (laid_chain_same fs6 fs') in LX; [now inversion LX|]. intros x Hx. apply SO'. intros X.
        cbn in Hx. apply in_app_or in Hx as [Hx|[<-|[]]]; [|tauto]. apply NoDup_remove_1 in ND. apply NoDup_app_iff in ND as (_ & _ & ND).
        exact (ND x Hx X).
      * constructor; [| | |exact HS'].
        -- rewrite (read_info_same m fs6 fs') by apply Gm. exact BK.
        -- intros b Hb. destruct (SC b Hb) as (up & down & S1 & S2 & S3). exists up, down. split; [exact S1|].
           unfold read_sql in *. rewrite !Gm. auto.
        -- intros k f Hf. rewrite Gm in Hf. eauto.
Qed.

(** * Stores of laid out migrations *)

Lemma laid_in fs e dp r n : laid_chain fs e dp r -> In n (map fst r) -> exists e' dp' d, laid_out fs e' dp' n d /\ In (n, d) r.
Proof.
  induction 1 as [|e dp m d r LO LR IH]; intros H; [destruct H|]. destruct H as [<-|H].
  - exists e, dp, d. split; [exact LO|now left].
  - destruct (IH H) as (e' & dp' & d' & A & B). exists e', dp', d'. split; [exact A|now right].
Qed.
Lemma laid_from fs fs' r : forall e dp, laid_chain fs e dp r -> laid_chain fs' e dp r ->
  forall n, In n (map fst r) -> omap in_from (read_info n fs') = omap in_from (read_info n fs).
Proof.
  induction r as [|[m d] r IH]; intros e dp L L' n Hn; [destruct Hn|].
  inversion L as [|? ? ? ? ? A B]; subst. inversion L' as [|? ? ? ? ? A' B']; subst.
  destruct Hn as [<-|Hn]; [|eauto]. cbn. now rewrite (lo_from _ _ _ _ _ A), (lo_from _ _ _ _ _ A').
Qed.
Lemma laid_names fs made : laid_store fs made -> NoDup (map fst made).
Proof.
  intros H. pose proof (chain_NoDup _ (fs_coherent fs) _ (ls_chain _ _ H)) as ND. unfold names in ND. cbn in ND. now rewrite map_id in ND.
Qed.
Lemma laid_latest fs made : laid_store fs made -> fs_latest fs = last (map Some (map fst made)) None.
Proof.
  intros H. pose proof (ls_chain _ _ H) as C. unfold chain in C. cbn [cl_latest fs_coll] in C.
  destruct (fs_latest fs) as [m|]; [|now rewrite C]. apply chain_to_last in C as [a ->]. now rewrite last_some.
Qed.
Lemma laid_all fs made : laid_store fs made -> all_migrations (fs_coll fs) = Ok (map fst made).
Proof. intros H. apply chain_all; [apply fs_coherent|apply H]. Qed.
Lemma latest_alike fs x : fs_state x = fs_state fs -> get_state fs = Ok (fs_latest fs) ->
  (forall n, has_dir fs n -> has_dir x n) -> fs_latest x = fs_latest fs.
Proof.
  intros E G D. pose proof (latest_dir fs) as LD. unfold fs_latest at 1. unfold get_state at 1. rewrite E. fold (get_state fs). rewrite G.
  destruct (fs_latest fs) as [n|]; [|reflexivity]. apply fs_get_dir. auto.
Qed.
Lemma laid_schema fs made n d : laid_store fs made -> In (n, d) made -> fs_schema fs n d.
Proof.
  intros H Hn. apply stored_schema; [apply H|]. pose proof (ls_laid _ _ H) as L. pose proof (laid_names _ _ H) as ND. clear H.
  remember ([] : list string) as e. clear Heqe. revert Hn ND. induction L as [|e dp m d' r LO LR IH]; intros Hn ND; [destruct Hn|].
  cbn [map fst] in ND. apply NoDup_cons_iff in ND as [N ND]. destruct Hn as [[= -> ->]|Hn]; [apply LO|auto].
Qed.
Lemma laid_script fs made l bn x : laid_store fs made -> script_only l bn fs x -> laid_store x made.
Proof.
  intros H SO. pose proof (so_latest _ _ _ _ SO) as EL. split.
  - apply SO.
  - rewrite EL. unfold get_state. rewrite (so_state _ _ _ _ SO). apply H.
  - apply (chain_alike fs); [intros n; apply SO|exact EL| |apply H]. intros n _. eapply so_from; eauto.
  - apply (laid_chain_alike fs); [|intros b x' f []|apply H]. intros n Hn. split; [|split; [|split]].
    + apply SO. eapply chain_has; [apply H|exact Hn].
    + intros k Hk. eapply so_plain; eauto.
    + eapply so_from; eauto.
    + eapply so_bases; eauto.
  - apply H.
Qed.
Lemma laid_fresh fs : fs_fresh fs -> laid_store fs [].
Proof.
  intros [OK E]. assert (L : fs_latest fs = None) by (unfold fs_latest, get_state; now rewrite E).
  split; [exact OK| | |constructor|intros []].
  - rewrite L. unfold get_state. now rewrite E.
  - unfold chain. cbn. now rewrite L.
Qed.
(** Nothing in the store of migrations changed. *)
Lemma laid_same fs x made : fs_ok x -> fs_state x = fs_state fs -> (forall n, has_dir fs n -> has_dir x n) ->
  (forall n, In n (map fst made) -> mget n (fs_dirs x) = mget n (fs_dirs fs)) -> laid_store fs made -> laid_store x made.
Proof.
  intros OK ES D E H. pose proof (latest_alike fs x ES (ls_state _ _ H) D) as EL.
  assert (G : forall n k, In n (map fst made) -> get_file n k x = get_file n k fs) by (intros n k Hn; unfold get_file; now rewrite E).
  split.
  - exact OK.
  - rewrite EL. unfold get_state. rewrite ES. apply H.
  - apply (chain_alike fs); auto; [|apply H]. intros n Hn. rewrite (read_info_same n fs x); [reflexivity|now apply G].
  - apply (laid_chain_same fs); [exact E|apply H].
  - apply H.
Qed.

Lemma laid_regenerated ls gb fs made u fs' tr bs : listing ls -> laid_store fs made -> latest_backends gb fs = Ok bs ->
  NoDup (map b_name bs) -> cli_regenerate ls gb fs = (Ok u, fs', tr) ->
  laid_store fs' made /\ has_scripts fs' bs [] adb_new made /\ fs_state fs' = fs_state fs /\
  (forall m, ~ In m (map fst made) -> mget m (fs_dirs fs') = mget m (fs_dirs fs)).
Proof.
  intros PL H EB NB R. unfold cli_regenerate in R.
  apply fbind_ok in R as (bs' & f0 & t1 & t2 & E1 & R & _). apply fread_ok in E1 as (E1 & -> & _). rewrite EB in E1. injection E1 as <-.
  apply fbind_ok in R as (all & f0 & t3 & t4 & E2 & R & _). apply fread_ok in E2 as (E2 & -> & _). rewrite (laid_all _ _ H) in E2. injection E2 as <-.
  pose proof (laid_names _ _ H) as ND. pose proof (laid_latest _ _ H) as EL.
  destruct (fs_latest fs) as [l|] eqn:El; [|unfold latest_backends in EB; rewrite El in EB; discriminate].
  destruct (regenerate_loop ls bs l PL NB made [] adb_new fs u fs' t4) as (OK' & ST' & SO' & LC' & HS'); auto.
  - apply H.
  - reflexivity.
  - intros f fi x b [=].
  - rewrite (ls_state _ _ H), El. reflexivity.
  - intros Ne. cbn [app]. destruct made as [|p r _] using rev_ind; [congruence|].
    rewrite map_app in *. cbn [map] in *. rewrite last_some in EL. injection EL as ->. rewrite removelast_last.
    intros X. apply NoDup_remove_2 in ND. now rewrite app_nil_r in ND.
  - apply H.
  - split; [|auto]. assert (D : forall n, has_dir fs n -> has_dir fs' n).
    { intros n [dir Hd]. destruct (in_dec string_dec n (map fst made)) as [Hn|Hn].
      - destruct (laid_in _ _ _ _ _ LC' Hn) as (? & ? & ? & LO & _). apply LO.
      - exists dir. now rewrite SO'. }
    assert (EL' : fs_latest fs' = fs_latest fs) by (apply latest_alike; auto; apply H).
    split.
    + exact OK'.
    + rewrite EL'. unfold get_state. rewrite ST'. apply H.
    + apply (chain_alike fs); auto; [|apply H]. apply (laid_from fs fs' made [] adb_new); auto. apply H.
    + exact LC'.
    + apply H.
Qed.

(** * Making a migration *)

Lemma fs_add_latest n fs o : get_state fs = Ok o -> omap in_from (read_info n fs) = Ok o ->
  exists tr, fs_add n fs = (Ok tt, {| fs_dirs := fs_dirs fs; fs_state := Some (FState (Some n)); fs_gitignore := true |}, tr).
Proof.
  intros G I. unfold fs_add, fbind, fread. destruct (read_info n fs) as [i| |]; cbn in I; try discriminate. injection I as ->.
  rewrite G. destruct o as [p|]; cbn [orb].
  - rewrite String.eqb_refl. rewrite save_state_run. eexists. reflexivity.
  - rewrite save_state_run. eexists. reflexivity.
Qed.
Lemma laid_made ls bs name fs made to fs' tr : listing ls -> NoDup (map b_name bs) -> laid_store fs made ->
  blank name fs -> ~ In name (map fst made) -> name <> "current"%string -> wf_schema to -> settled to ->
  fs_create_to ls bs name (fs_latest fs) to fs = (Ok true, fs', tr) ->
  exists d', same_schema d' to /\ laid_store fs' (made ++ [(name, d')]) /\ fs_latest fs' = Some name /\
    (a_types to = [] -> (forall x t, In (x, t) (a_tables to) -> kept_table (last (map snd made) adb_new) x t ->
       In (x, t) (a_tables (last (map snd made) adb_new))) -> d' = to) /\
    (forall m, m <> name -> mget m (fs_dirs fs') = mget m (fs_dirs fs)) /\
    omap in_backends (read_info name fs') = Ok (map b_name bs) /\
    (forall b, In b bs -> exists up down, scripts_of bs (fs_latest fs) (last (map snd made) adb_new) to b up down /\
       read_sql name (b_name b) "up" fs' = Ok (Some (with_newline up)) /\
       read_sql name (b_name b) "down" fs' = Ok (Some (with_newline down))) /\
    (forall k f, get_file name k fs' = Some f -> k = "info.json"%string \/ ends_with k ".table" = true \/
       exists b dir, In b bs /\ (dir = "up"%string \/ dir = "down"%string) /\ k = sql_name (b_name b) dir).
Proof.
  intros PL NB H BL Nn NC Wt St R. pose proof (laid_latest _ _ H) as EL. rewrite EL in R.
  set (earlier := map fst made) in *. set (dp := last (map snd made) adb_new).
  assert (X : from_schema fs (last (map Some earlier) None) dp /\
    (forall f fi x b, last (map Some earlier) None = Some f -> read_info f fs = Ok fi -> mget x (in_bases fi) = Some b -> In b earlier)).
  { destruct made as [|[p d] r _] using rev_ind; [split; [reflexivity|intros ? ? ? ? [=]]|].
    unfold earlier, dp. rewrite !map_app. cbn [map fst snd]. rewrite !last_last. cbn [from_schema].
    pose proof (ls_laid _ _ H) as L. apply laid_chain_app in L as [_ L]. inversion L as [|? ? ? ? ? LO _]; subst. split; [apply LO|].
    intros f fi x b [= <-] Ei Hx. apply in_or_app. left. eapply (lo_bases _ _ _ _ _ LO); eauto. }
  destruct X as [FS BF].
  destruct (create_ran _ _ _ _ _ _ _ _ _ (ls_ok _ _ H) PL FS R) as (calls & w & fs6 & t5 & t6 & C1 & C2 & C3).
  destruct (laid_created ls bs name earlier to fs dp calls w fs6 t5 (ls_ok _ _ H) PL BL Nn FS BF Wt St NB C1 C2)
      as (d' & SS & (OK6 & SO6 & ST6) & LO6 & Ed & BK & SC & FO).
  assert (GS6 : get_state fs6 = Ok (last (map Some earlier) None)).
  { unfold get_state. rewrite ST6. rewrite <- EL. apply H. }
  destruct (fs_add_latest name fs6 _ GS6 (lo_from _ _ _ _ _ LO6)) as [t7 E7]. rewrite E7 in C3. injection C3 as <- _.
  exists d'. split; [exact SS|].
  set (fs' := {| fs_dirs := fs_dirs fs6; fs_state := Some (FState (Some name)); fs_gitignore := true |}).
  assert (G : forall n k, get_file n k fs' = get_file n k fs6) by reflexivity.
  assert (LO' : laid_out fs' earlier dp name d').
  { apply (laid_alike fs6); auto. apply LO6. }
  assert (LL : fs_latest fs' = Some name).
  { unfold fs_latest, get_state. cbn [fs_state fs']. apply fs_get_dir. split; [reflexivity|]. apply LO'. }
  assert (D : forall n, has_dir fs n -> has_dir fs' n).
  { intros n Hn. destruct (string_dec n name) as [->|N]; [apply LO'|]. unfold has_dir, fs'. cbn [fs_dirs]. rewrite SO6; auto. }
  split; [|rewrite EL; split; [exact LL|]; split; [exact Ed|]; split; [exact SO6|]; split; [exact BK|]; split; [exact SC|exact FO]].
  split.
  - split; apply OK6.
  - rewrite LL. reflexivity.
  - unfold chain. cbn [cl_latest fs_coll]. rewrite LL, map_app. cbn [map fst]. fold earlier.
    pose proof (ls_chain _ _ H) as C. unfold chain in C. cbn [cl_latest fs_coll] in C. rewrite EL in C.
    destruct (last (map Some earlier) None) as [p|] eqn:Elp.
    + apply (ch_next _ name p).
      * exists p. cbn. rewrite (lo_from _ _ _ _ _ LO'), Elp. split; [reflexivity|]. apply fs_get_dir. split; [reflexivity|].
        apply D, latest_dir, EL.
      * apply (chain_to_alike fs); [exact D| |exact C]. intros n Hn. rewrite (read_info_same n fs fs'); [reflexivity|].
        rewrite G. apply (get_file_same name); [exact SO6|]. intros ->. exact (Nn Hn).
    + fold earlier in C. rewrite C. apply ch_first. unfold is_first. cbn. rewrite (lo_from _ _ _ _ _ LO'), Elp. reflexivity.
  - apply laid_chain_app. split.
    + apply (laid_chain_same fs); [|apply H]. cbn [app]. intros n Hn. apply SO6. intros ->. exact (Nn Hn).
    + cbn [app]. constructor; [exact LO'|constructor].
  - rewrite map_app, in_app_iff. cbn. intros [X|[X|[]]]; [exact (ls_current _ _ H X)|congruence].
Qed.

(** * Detaching *)

Lemma detach_effect fs made n d o fs' tr : laid_store fs (made ++ [(n, d)]) -> made <> [] -> fs_detach fs = (o, fs', tr) ->
  o = Ok tt /\ laid_store fs' made /\ fs_dirs fs' = fs_dirs fs.
Proof.
  intros H Ne R. pose proof (laid_latest _ _ H) as EL. rewrite map_app in EL. cbn [map fst] in EL. rewrite last_some in EL.
  pose proof (ls_laid _ _ H) as L. apply laid_chain_app in L as [L1 L2]. cbn [app] in L2. inversion L2 as [|? ? ? ? ? LO _]; subst.
  destruct made as [|[p dp] made _] using rev_ind; [congruence|]. clear Ne.
  assert (EF : omap in_from (read_info n fs) = Ok (Some p)).
  { rewrite (lo_from _ _ _ _ _ LO), map_app. cbn [map fst]. now rewrite last_some. }
  unfold fs_detach, fbind at 1, fread in R. rewrite EL in R. unfold fbind at 1 in R. rewrite EF in R. cbn [obind] in R.
  unfold fbind in R. rewrite (ls_state _ _ H) in R. rewrite save_state_run in R. injection R as <- <- _.
  split; [reflexivity|]. split; [|reflexivity].
  set (fs' := {| fs_dirs := fs_dirs fs; fs_state := Some (FState (Some p)); fs_gitignore := true |}).
  assert (HP : has_dir fs p).
  { apply laid_chain_app in L1 as [_ L1]. inversion L1 as [|? ? ? ? ? LP _]; subst. apply LP. }
  assert (LL : fs_latest fs' = Some p).
  { unfold fs_latest, get_state. cbn [fs_state fs']. apply fs_get_dir. split; [reflexivity|exact HP]. }
  split.
  - split; apply H.
  - rewrite LL. reflexivity.
  - unfold chain. cbn [cl_latest fs_coll]. rewrite LL. pose proof (ls_chain _ _ H) as C.
    rewrite !map_app in *. cbn [map fst] in *.
    assert (C' : chain_to (fs_coll fs) p (map fst made ++ [p])).
    { eapply (chain_prefix_to (fs_coll fs)); [exact C|]. rewrite <- app_assoc. reflexivity. }
    apply (chain_to_alike fs); auto.
  - apply (laid_chain_same fs); [reflexivity|exact L1].
  - intros X. apply (ls_current _ _ H). rewrite map_app. apply in_or_app. auto.
Qed.

(** * Deleting everything *)

Lemma del_files_run d l : forall fs, fs_ok fs -> has_dir fs d -> exists fs' tr, fsteps (map (del_file d) l) fs = (Ok tt, fs', tr) /\
  fs_ok fs' /\ has_dir fs' d /\ fs_state fs' = fs_state fs /\ fs_gitignore fs' = fs_gitignore fs /\
  (forall m, m <> d -> mget m (fs_dirs fs') = mget m (fs_dirs fs)).
Proof.
  induction l as [|k l IH]; intros fs OK HD; cbn [map fsteps].
  - eexists _, _. split; [reflexivity|]. auto 10.
  - destruct (del_file_frame d k fs OK) as (OK1 & SO1 & ST1). destruct (del_file_get d k fs OK HD) as [HD1 _].
    destruct (IH _ OK1 HD1) as (fs' & tr & E & A & B & C & G & F). unfold fbind, fstep. rewrite E.
    eexists _, _. split; [reflexivity|]. split; [exact A|]. split; [exact B|]. split; [congruence|]. split.
    + rewrite G. apply del_git.
    + intros m Nm. now rewrite F, SO1.
Qed.
Lemma remove_dir_run ls d fs : fs_ok fs -> has_dir fs d -> exists fs' tr, remove_dir_all ls d fs = (Ok tt, fs', tr) /\
  fs_ok fs' /\ fs_state fs' = fs_state fs /\ fs_gitignore fs' = fs_gitignore fs /\
  (forall m, mget m (fs_dirs fs') = if String.eqb m d then None else mget m (fs_dirs fs)).
Proof.
  intros OK [dir E]. unfold remove_dir_all, fbind at 1, fread. rewrite E.
  destruct (del_files_run d (ls (mkeys dir)) fs OK (ex_intro _ dir E)) as (fs1 & t1 & E1 & OK1 & HD1 & ST1 & GI1 & SO1).
  unfold fbind. rewrite E1. unfold fstep. eexists _, _. split; [reflexivity|].
  assert (GM : forall m, mget m (mdel d (fs_dirs fs1)) = if String.eqb m d then None else mget m (fs_dirs fs)).
  { intros m. rewrite mget_mdel by apply OK1. destruct (String.eqb_spec m d) as [->|N]; [now rewrite keqb_refl|]. rewrite (proj2 (keqb_neq m d) N). auto. }
  split; [|auto]. split; cbn [drop_dir fs_dirs].
  - apply mdel_sorted, OK1.
  - intros m dm Hm. cbn [drop_dir fs_dirs] in Hm. rewrite GM in Hm. destruct (String.eqb m d); [discriminate|]. apply (proj2 OK m dm Hm).
Qed.
Lemma delete_root_run ls l : forall fs, fs_ok fs -> plain_root fs -> exists fs' tr, delete_root ls l fs = (Ok tt, fs', tr) /\ fs_ok fs' /\
  fs_state fs' = (if existsb (String.eqb "state.json") l then None else fs_state fs) /\
  fs_gitignore fs' = (if existsb (String.eqb ".gitignore") l then false else fs_gitignore fs) /\
  (forall m, mget m (fs_dirs fs') = if existsb (String.eqb m) l && negb (String.eqb m "current") then None else mget m (fs_dirs fs)).
Proof.
  induction l as [|n l IH]; intros fs OK PR; cbn [delete_root].
  - eexists _, _. split; [reflexivity|]. cbn. auto.
  - unfold fbind at 1. destruct (String.eqb_spec n "current") as [->|Nc].
    + cbn [fret]. destruct (IH fs OK PR) as (fs' & tr & E & A & B & C & D). rewrite E. eexists _, _. split; [reflexivity|].
      split; [exact A|]. split; [exact B|]. split; [exact C|]. intros m. rewrite D. cbn [existsb].
      destruct (String.eqb m "current"); [now rewrite !andb_false_r|reflexivity].
    + unfold fbind at 1, fread. destruct (mget n (fs_dirs fs)) as [dir|] eqn:ED.
      * destruct (remove_dir_run ls n fs OK (ex_intro _ dir ED)) as (fs1 & t1 & E1 & OK1 & ST1 & GI1 & SO1). rewrite E1.
        assert (PR1 : plain_root fs1).
        { destruct PR as [P1 P2]. unfold plain_root, fs_get in *. rewrite !SO1.
          destruct (String.eqb "state.json" n), (String.eqb ".gitignore" n); auto. }
        assert (Ns : "state.json"%string <> n /\ ".gitignore"%string <> n).
        { destruct PR as [P1 P2]. unfold fs_get in *. split; intros <-; rewrite ED in *; discriminate. }
        destruct (IH fs1 OK1 PR1) as (fs' & tr & E & A & B & C & D). rewrite E. eexists _, _. split; [reflexivity|].
        split; [exact A|]. cbn [existsb]. rewrite (proj2 (String.eqb_neq _ _) (proj1 Ns)), (proj2 (String.eqb_neq _ _) (proj2 Ns)). cbn [orb].
        split; [now rewrite B, ST1|]. split; [now rewrite C, GI1|]. intros m. rewrite D, SO1.
        destruct (String.eqb_spec m n) as [->|]; cbn [orb andb].
        -- rewrite (proj2 (String.eqb_neq _ _) Nc). cbn. now destruct (existsb (String.eqb n) l).
        -- reflexivity.
      * unfold fstep. set (fs1 := remove_root_file n fs).
        destruct (IH fs1) as (fs' & tr & E & A & B & C & D); [split; apply OK|exact PR|]. rewrite E. eexists _, _. split; [reflexivity|].
        split; [exact A|]. cbn [existsb]. split; [|split].
        -- rewrite B. unfold fs1. cbn [remove_root_file fs_state]. rewrite (String.eqb_sym "state.json" n).
           destruct (String.eqb n "state.json"); cbn [orb]; [destruct (existsb (String.eqb "state.json") l); reflexivity|reflexivity].
        -- rewrite C. unfold fs1. cbn [remove_root_file fs_gitignore]. rewrite (String.eqb_sym ".gitignore" n).
           destruct (String.eqb n ".gitignore"); cbn [orb]; [destruct (existsb (String.eqb ".gitignore") l); reflexivity|reflexivity].
        -- intros m. rewrite D. unfold fs1. cbn [remove_root_file fs_dirs]. destruct (String.eqb_spec m n) as [->|]; cbn [orb andb].
           ++ rewrite ED. now destruct (existsb (String.eqb n) l && negb (String.eqb n "current")), (negb (String.eqb n "current")).
           ++ reflexivity.
Qed.
Lemma delete_migrations_run ls fs : listing ls -> fs_ok fs -> plain_root fs -> exists fs' tr, fs_delete_migrations ls fs = (Ok tt, fs', tr) /\
  fs_ok fs' /\ fs_state fs' = None /\ fs_gitignore fs' = false /\
  (forall m, mget m (fs_dirs fs') = if String.eqb m "current" then mget m (fs_dirs fs) else None).
Proof.
  intros PL OK PR. unfold fs_delete_migrations, fbind, fread.
  destruct (delete_root_run ls (ls (root_entries fs)) fs OK PR) as (fs' & tr & E & A & B & C & D). rewrite E.
  eexists _, _. split; [reflexivity|]. split; [exact A|].
  assert (X : forall k, existsb (String.eqb k) (ls (root_entries fs)) = true <-> In k (root_entries fs)).
  { intros k. rewrite existsb_exists. split.
    - intros (y & Hy & Ek). apply String.eqb_eq in Ek as <-. eapply Permutation_in; [apply PL|exact Hy].
    - intros Hk. exists k. split; [|apply String.eqb_refl]. eapply Permutation_in; [apply Permutation_sym, PL|exact Hk]. }
  split; [|split].
  - rewrite B. destruct (existsb (String.eqb "state.json") _) eqn:EX; [reflexivity|]. destruct (fs_state fs) as [f|] eqn:EF; [|reflexivity].
    rewrite (proj2 (X _)) in EX; [discriminate|]. unfold root_entries. rewrite EF. apply in_or_app. right. apply in_or_app. left. cbn. auto.
  - rewrite C. destruct (existsb (String.eqb ".gitignore") _) eqn:EX; [reflexivity|]. destruct (fs_gitignore fs) eqn:EF; [|reflexivity].
    rewrite (proj2 (X _)) in EX; [discriminate|]. unfold root_entries. rewrite EF. apply in_or_app. right. apply in_or_app. right. cbn. auto.
  - intros m. rewrite D. destruct (String.eqb m "current"); [now rewrite andb_false_r|]. cbn [negb]. rewrite andb_true_r.
    destruct (existsb (String.eqb m) _) eqn:EX; [reflexivity|]. destruct (mget m (fs_dirs fs)) as [dir|] eqn:EF; [|reflexivity].
    rewrite (proj2 (X _)) in EX; [discriminate|]. unfold root_entries. apply in_or_app. left. apply mget_keys. eauto.
Qed.

(** * Creations that cannot fail *)

Definition steady (name : string) (fs0 fs : FS) : Prop :=
  fs_ok fs /\ fs_state fs = fs_state fs0 /\ (forall n, has_dir fs0 n -> has_dir fs n) /\ (exists i, read_info name fs = Ok i) /\
  (forall n, omap in_from (read_info n fs) = omap in_from (read_info n fs0)).
Lemma steady_write name fs0 fs k f f' : steady name fs0 fs -> nl_terminated f = Ok f' ->
  (k = "info.json"%string -> exists i i', f' = FInfo i' /\ read_info name fs = Ok i /\ in_from i' = in_from i) ->
  exists fs' tr, write_contents name k f fs = (Ok tt, fs', tr) /\ steady name fs0 fs' /\
    (forall k', get_file name k' fs' = if String.eqb k' k then Some f' else get_file name k' fs).
Proof.
  intros (OK & ST & D & (i & I) & F) N K. destruct (write_runs name k f f' fs OK N) as (fs' & tr & E & OK' & HD & G & (_ & SO & ST')).
  exists fs', tr. split; [exact E|]. split; [|exact G].
  assert (FI : (exists i, read_info name fs' = Ok i) /\ omap in_from (read_info name fs') = omap in_from (read_info name fs)).
  { destruct (string_dec k "info.json") as [->|Nk].
    - destruct (K eq_refl) as (i0 & i' & -> & I0 & EF). rewrite (read_info_set name fs' i') by (rewrite G; reflexivity). rewrite I0.
      cbn. rewrite EF. eauto.
    - rewrite (read_info_same name fs fs') by (rewrite G, (proj2 (String.eqb_neq _ _)); congruence). eauto. }
  split; [exact OK'|]. split; [congruence|]. split; [|split; [apply FI|]].
  - intros n Hn. destruct (string_dec n name) as [->|Nn]; [exact HD|]. apply (dir_same name fs fs'); auto.
  - intros n. rewrite <- F. destruct (string_dec n name) as [->|Nn]; [apply FI|].
    rewrite (read_info_same n fs fs'); [reflexivity|]. now apply (get_file_same name).
Qed.
Lemma chain_readable {M} (c : Coll M) m l : chain_to c m l -> forall x, In x l -> exists o, cl_from c x = Ok o.
Proof.
  induction 1 as [m F|m p l (n & E & _) C IH]; intros x Hx.
  - destruct Hx as [<-|[]]. exists None. exact F.
  - apply in_app_or in Hx as [Hx|[<-|[]]]; eauto.
Qed.
(** A call that has what it needs. *)
Definition ready (l : list string) (c : Call) : Prop :=
  match c with
  | CModified _ => True
  | CUnmodified _ f => In f l
  | CSql _ up down => up <> ""%string /\ down <> ""%string
  | CFrom _ => False
  end.
Lemma call_runs name fs0 l c fs : get_state fs0 = Ok (fs_latest fs0) -> chain (fs_coll fs0) l -> ready l c -> steady name fs0 fs ->
  exists fs' tr, fs_call name c fs = (Ok tt, fs', tr) /\ steady name fs0 fs'.
Proof.
  intros GS CH R SD. destruct c as [t|t f|b up down|o]; cbn [fs_call ready] in *.
  - destruct (steady_write name fs0 fs (table_file (t_name t)) (FTable t) _ SD eq_refl) as (fs' & tr & E & S' & _); [|eauto].
    intros X. now apply table_file_info in X.
  - pose proof SD as (OK & ST & D & (i & I) & F).
    assert (EL : fs_latest fs = fs_latest fs0) by (apply latest_alike; auto).
    assert (CH' : chain (fs_coll fs) l) by (apply (chain_alike fs0); auto).
    assert (RF : exists fi, read_info f fs = Ok fi).
    { unfold chain in CH'. cbn [cl_latest fs_coll] in CH'. destruct (fs_latest fs); [|subst l; destruct R].
      destruct (chain_readable _ _ _ CH' f R) as (o & Eo). cbn in Eo. destruct (read_info f fs); try discriminate. eauto. }
    destruct RF as [fi RF]. unfold fs_add_unmodified, fbind at 1, fread. rewrite (chain_all _ (fs_coherent fs) _ CH').
    assert (EX : exists y, find (fun m => String.eqb m f) l = Some y /\ y = f).
    { destruct (find (fun m => String.eqb m f) l) as [y|] eqn:Ef.
      - exists y. split; [reflexivity|]. apply find_some in Ef as [_ Ef]. now apply String.eqb_eq in Ef.
      - exfalso. pose proof (find_none _ _ Ef f R) as X. cbn in X. now rewrite String.eqb_refl in X. }
    destruct EX as (y & EX & ->). unfold fbind at 1. rewrite EX, RF. cbv zeta. unfold fbind. rewrite I.
    match goal with |- context [write_info name ?j fs] => destruct (steady_write name fs0 fs "info.json" (FInfo j) _ SD eq_refl) as (fs' & tr & E & S' & _) end.
    { intros _. eexists _, _. split; [reflexivity|]. split; [exact I|reflexivity]. }
    unfold write_info. rewrite E. eexists _, _. split; [reflexivity|exact S'].
  - destruct R as [U W]. unfold fs_add_sql.
    destruct (steady_write name fs0 fs (sql_name b "up") _ _ SD (nl_runs up U)) as (fs1 & t1 & E1 & S1 & _).
    { intros X. now apply sql_name_info in X. }
    destruct (steady_write name fs0 fs1 (sql_name b "down") _ _ S1 (nl_runs down W)) as (fs2 & t2 & E2 & S2 & _).
    { intros X. now apply sql_name_info in X. }
    unfold fbind. rewrite E1, E2. unfold fread. pose proof S2 as (_ & _ & _ & (i & I) & _). rewrite I.
    destruct (existsb _ _); [eexists _, _; split; [reflexivity|exact S2]|].
    match goal with |- context [write_info name ?j fs2] => destruct (steady_write name fs0 fs2 "info.json" (FInfo j) _ S2 eq_refl) as (fs' & tr & E & S' & _) end.
    { intros _. eexists _, _. split; [reflexivity|]. split; [exact I|reflexivity]. }
    unfold write_info. rewrite E. eexists _, _. split; [reflexivity|exact S'].
  - destruct R.
Qed.
Lemma calls_run name fs0 l from cs : get_state fs0 = Ok (fs_latest fs0) -> chain (fs_coll fs0) l -> forall fs,
  (forall c, In c cs -> ready l c) -> steady name fs0 fs ->
  exists fs' tr, fs_calls name (map Ok cs ++ [Ok (CFrom from)]) fs = (Ok tt, fs', tr) /\
    fs_state fs' = fs_state fs0 /\ exists i, read_info name fs' = Ok i.
Proof.
  intros GS CH. induction cs as [|c cs IH]; intros fs R SD.
  - cbn [map app fs_calls fs_call]. unfold fbind, flift. cbn [fs_call]. unfold fs_set_from, fbind, fread.
    pose proof SD as (OK & ST & _ & (i & I) & _). rewrite I.
    match goal with |- context [write_info name ?j fs] => destruct (write_runs name "info.json" (FInfo j) _ fs OK eq_refl) as (fs' & tr & E & _ & _ & G & (_ & _ & ST')) end.
    unfold write_info. rewrite E. eexists _, _. split; [reflexivity|]. split; [congruence|].
    eexists. apply read_info_set. rewrite G. reflexivity.
  - cbn [map app fs_calls]. unfold fbind at 1, flift. unfold fbind at 1.
    destruct (call_runs name fs0 l c fs GS CH (R c (or_introl eq_refl)) SD) as (fs1 & t1 & E1 & S1). rewrite E1.
    destruct (IH fs1 (fun x Hx => R x (or_intror Hx)) S1) as (fs' & tr & E & X). rewrite E. eexists _, _. split; [reflexivity|exact X].
Qed.
Lemma create_runs ls bs name from to fs d l : fs_ok fs -> listing ls -> from_schema fs from d ->
  get_state fs = Ok (fs_latest fs) -> chain (fs_coll fs) l -> (forall f, from = Some f -> In f l) ->
  (exists i, read_info name fs = Ok i) -> wf_schema to -> ~ same_schema d to ->
  (forall b, In b bs -> exists up down, scripts_of bs from d to b up down /\ up <> ""%string /\ down <> ""%string) ->
  exists fs' tr, fs_create_to ls bs name from to fs = (Ok true, fs', tr).
Proof.
  intros OK PL FS GS CH IL RI Wt ND SC. pose proof (from_schema_wf _ _ _ FS) as Wd.
  assert (CR : exists cs, create_calls bs from d to = Ok (Some (map Ok cs ++ [Ok (CFrom from)])) /\ forall c, In c cs -> ready l c).
  { destruct (diff_out d to) as [ops| |] eqn:ED.
    2,3: rewrite diff_eq in ED; discriminate.
    destruct (create_calls bs from d to) as [[calls|]| |] eqn:EC.
    2:{ exfalso. apply create_none in EC. rewrite EC in ED. injection ED as <-. rewrite diff_eq in EC. injection EC as EC.
        apply diff_empty_iff in EC; auto. }
    2,3: unfold create_calls in EC; rewrite ED in EC; cbn in EC; destruct ops; discriminate.
    apply create_some in EC as (ops' & ED' & Ne & ->). rewrite ED in ED'. injection ED' as <-.
    assert (T : exists c1, map (fun t => if kmem (t_name t) (flat_map op_modifies ops) then Ok (CModified t)
                          else match from with
                               | None => Err (MigrationError "unmodified requires a from")
                               | Some f => Ok (CUnmodified t f)
                               end) (mvals (a_tables to)) = map Ok c1 /\ forall c, In c c1 -> ready l c).
    { assert (M1 : from = None -> forall t, In t (mvals (a_tables to)) -> kmem (t_name t) (flat_map op_modifies ops) = true).
      { intros -> t Ht. cbn in FS. subst d. apply (modified_first to ops t Wt ED Ht). }
      clear - M1 IL. induction (mvals (a_tables to)) as [|t ts IH]; [exists []; split; [reflexivity|intros c []]|].
      destruct IH as (c1 & E1 & R1); [intros X u Hu; apply M1; [exact X|now right]|]. cbn [map]. rewrite E1.
      destruct (kmem (t_name t) (flat_map op_modifies ops)) eqn:K.
      - exists (CModified t :: c1). split; [reflexivity|]. intros c [<-|Hc]; [exact I|auto].
      - destruct from as [f|]; [|rewrite (M1 eq_refl t (or_introl eq_refl)) in K; discriminate].
        exists (CUnmodified t f :: c1). split; [reflexivity|]. intros c [<-|Hc]; [cbn; auto|auto]. }
    assert (Q : exists c2, map (fun b => do up <- b_sql b d (first_ops from ops);
                             do dops <- diff_out to d;
                             do down <- b_sql b to dops;
                             Ok (CSql (b_name b) up down)) bs = map Ok c2 /\ forall c, In c c2 -> ready l c).
    { assert (SC' : forall b, In b bs -> exists up down, (do up <- b_sql b d (first_ops from ops);
                             do dops <- diff_out to d;
                             do down <- b_sql b to dops;
                             Ok (CSql (b_name b) up down)) = Ok (CSql (b_name b) up down) /\ up <> ""%string /\ down <> ""%string).
      { intros b Hb. destruct (SC b Hb) as (up & down & (_ & ops' & dops & A & B & C & D) & U & W). rewrite ED in A. injection A as <-.
        exists up, down. rewrite C, B. cbn [obind]. rewrite D. auto. }
      clear - SC'. induction bs as [|b bs IH]; [exists []; split; [reflexivity|intros c []]|].
      destruct IH as (c2 & E2 & R2); [intros x Hx; apply SC'; now right|]. cbn [map]. rewrite E2.
      destruct (SC' b (or_introl eq_refl)) as (up & down & E & U & W). rewrite E.
      exists (CSql (b_name b) up down :: c2). split; [reflexivity|]. intros c [<-|Hc]; [cbn; auto|auto]. }
    destruct T as (c1 & E1 & R1), Q as (c2 & E2 & R2). exists (c1 ++ c2). rewrite E1, E2, map_app, <- app_assoc. split; [reflexivity|].
    intros c Hc. apply in_app_or in Hc as [Hc|Hc]; auto. }
  destruct CR as (cs & EC & RC).
  destruct (calls_run name fs l from cs GS CH fs RC) as (fs1 & t1 & E1 & ST1 & (i & I1)).
  { split; [exact OK|]. auto. }
  destruct (create_reads ls bs name from to fs d OK PL FS) as (t0 & _ & E). rewrite E. unfold fbind at 1, flift. rewrite EC.
  unfold fbind at 1. rewrite E1. unfold fbind at 1.
  assert (EA : exists fs2 t2, fs_add name fs1 = (Ok tt, fs2, t2)).
  { unfold fs_add, fbind, fread. rewrite I1. unfold get_state. rewrite ST1. fold (get_state fs). rewrite GS.
    destruct (_ || _); [rewrite save_state_run|]; eexists _, _; reflexivity. }
  destruct EA as (fs2 & t2 & ->). eexists _, _. reflexivity.
Qed.

Lemma delete_entries_runs n l : forall fs i, fs_ok fs -> has_dir fs n -> NoDup l -> read_info n fs = Ok i ->
  (forall k, In k l -> exists f, get_file n k fs = Some f) -> exists fs' tr, delete_entries n l fs = (Ok tt, fs', tr).
Proof.
  induction l as [|e l IH]; intros fs i OK HD ND RI P; cbn [delete_entries]; [eexists _, _; reflexivity|].
  apply NoDup_cons_iff in ND as [Ne ND]. destruct (String.eqb_spec e "info.json") as [->|Nk].
  - unfold fbind at 1. unfold fbind at 1, fread. rewrite RI.
    match goal with |- context [write_info n ?j fs] => destruct (write_runs n "info.json" (FInfo j) _ fs OK eq_refl) as (fs1 & t1 & E1 & OK1 & HD1 & G1 & _) end.
    unfold write_info. rewrite E1. destruct (IH fs1 {| in_from := in_from i; in_bases := []; in_backends := [] |} OK1 HD1 ND) as (fs' & tr & E).
    + apply read_info_set. rewrite G1. reflexivity.
    + intros k Hk. rewrite G1. rewrite (proj2 (String.eqb_neq _ _)); [apply P; now right|]. intros ->. exact (Ne Hk).
    + rewrite E. eexists _, _. reflexivity.
  - unfold fbind at 1, delete_entry. destruct (P e (or_introl eq_refl)) as [f Hf]. unfold fbind at 1, fread. rewrite Hf. unfold fstep.
    destruct (del_file_get n e fs OK HD) as [HD1 G1]. destruct (IH (del_file n e fs) i (proj1 (del_file_frame n e fs OK)) HD1 ND) as (fs' & tr & E).
    + rewrite <- RI. apply read_info_same. rewrite G1, (proj2 (String.eqb_neq _ _)); congruence.
    + intros k Hk. rewrite G1. rewrite (proj2 (String.eqb_neq _ _)); [apply P; now right|]. intros ->. exact (Ne Hk).
    + rewrite E. eexists _, _. reflexivity.
Qed.
Lemma delete_db_runs ls n fs i : listing ls -> fs_ok fs -> has_dir fs n -> read_info n fs = Ok i ->
  exists fs' tr, fs_delete_db ls n fs = (Ok tt, fs', tr) /\ omap in_from (read_info n fs') = Ok (in_from i).
Proof.
  intros PL OK HD RI. unfold fs_delete_db. pose proof HD as [dir ED]. unfold fbind, fread. rewrite ED.
  assert (K : forall k, In k (ls (mkeys dir)) -> exists f, get_file n k fs = Some f).
  { intros k Hk. unfold get_file. rewrite ED. apply mget_keys. eapply Permutation_in; [apply PL|exact Hk]. }
  destruct (delete_entries_runs n (ls (mkeys dir)) fs i OK HD) as (fs' & tr & E); auto.
  { eapply Permutation_NoDup; [apply Permutation_sym, PL|]. apply sorted_NoDup. exact (proj2 OK n dir ED). }
  rewrite E. eexists _, _. split; [reflexivity|]. destruct (delete_entries_get _ _ _ _ _ _ OK HD E) as (_ & _ & I).
  destruct (existsb _ _).
  - destruct I as (i' & A & ->). rewrite RI in A. injection A as <-. reflexivity.
  - rewrite I, RI. reflexivity.
Qed.

Lemma regenerate_loop_runs ls bs l : listing ls -> NoDup (map b_name bs) -> forall r earlier dp fs,
  fs_ok fs -> from_schema fs (last (map Some earlier) None) dp ->
  (forall f fi x b, last (map Some earlier) None = Some f -> read_info f fs = Ok fi -> mget x (in_bases fi) = Some b -> In b earlier) ->
  NoDup (earlier ++ map fst r) -> get_state fs = Ok (Some l) ->
  (r <> [] -> ~ In l (earlier ++ removelast (map fst r))) ->
  laid_chain fs earlier dp r ->
  fs_latest fs = Some l -> chain (fs_coll fs) (earlier ++ map fst r) ->
  (forall a n d q, r = a ++ (n, d) :: q -> forall b, In b bs -> exists up down,
     scripts_of bs (last (map Some (earlier ++ map fst a)) None) (last (map snd a) dp) d b up down /\ up <> ""%string /\ down <> ""%string) ->
  exists fs' tr, regenerate_each ls bs (last (map Some earlier) None) (map fst r) fs = (Ok tt, fs', tr).
Proof.
  intros PL NB. induction r as [|[m d] r IH]; intros earlier dp fs OK FS BF ND GS NL L EL CH SC; [eexists _, _; reflexivity|].
  inversion L as [|? ? ? ? ? LO LR]; subst. pose proof (lo_stored _ _ _ _ _ LO) as SD.
  assert (Nm : ~ In m earlier /\ ~ In m (map fst r)).
  { apply NoDup_remove_2 in ND. split; intros X; apply ND, in_or_app; auto. }
  assert (Lin : forall f, last (map Some earlier) None = Some f -> In f earlier).
  { intros f Ef. clear - Ef. destruct earlier as [|x l] using rev_ind; [discriminate|].
    rewrite last_some in Ef. injection Ef as <-. apply in_or_app. cbn. auto. }
  destruct (st_info _ _ _ SD) as (i & RI & _).
  destruct (delete_db_runs ls m fs i PL OK (st_dir _ _ _ SD) RI) as (fs1 & t1 & E1 & I1).
  destruct (delete_db_blank _ _ _ _ _ _ PL OK E1) as ((OK1 & SO1 & ST1) & HD1 & BL1).
  assert (IF1 : forall n, omap in_from (read_info n fs1) = omap in_from (read_info n fs)).
  { intros n. destruct (string_dec n m) as [->|Nn]; [rewrite I1, RI; reflexivity|].
    rewrite (read_info_same n fs fs1); [reflexivity|]. now apply (get_file_same m). }
  assert (D1 : forall n, has_dir fs n -> has_dir fs1 n).
  { intros n Hn. destruct (string_dec n m) as [->|Nn]; [exact HD1|]. now apply (dir_same m fs fs1). }
  assert (EL1 : fs_latest fs1 = fs_latest fs) by (apply latest_alike; auto; congruence).
  assert (CH1 : chain (fs_coll fs1) (earlier ++ m :: map fst r)) by (apply (chain_alike fs); auto).
  assert (FS1 : from_schema fs1 (last (map Some earlier) None) dp).
  { destruct (last (map Some earlier) None) as [p|] eqn:El; [|exact FS]. cbn in *. pose proof (Lin p eq_refl) as Hp.
    assert (Np : p <> m) by (intros ->; tauto). clear - FS SO1 BF Np Nm Hp.
    destruct FS as [D W T ST NT F (i & I & SB & B & C)]. split; auto.
    - now apply (dir_same m fs fs1).
    - now rewrite (get_file_same m fs fs1).
    - intros k f. rewrite (get_file_same m fs fs1); auto.
    - exists i. rewrite (read_info_same p fs fs1) by (now apply (get_file_same m)).
      split; [exact I|]. split; [exact SB|]. split.
      + intros x b Hx. rewrite (get_file_same m fs fs1) by auto. destruct (B x b Hx) as (B1 & t & B2 & B3). split; [exact B1|].
        exists t. split; [exact B2|]. rewrite (get_file_same m fs fs1); auto. intros ->. apply (proj1 Nm). eapply BF; eauto.
      + intros x t Hx. rewrite (get_file_same m fs fs1); auto. }
  destruct (create_runs ls bs m (last (map Some earlier) None) d fs1 dp (earlier ++ m :: map fst r) OK1 PL FS1) as (fs2 & t2 & E2); auto.
  { unfold get_state. rewrite ST1. fold (get_state fs). rewrite EL1, GS, EL. reflexivity. }
  { intros f Ef. apply in_or_app. auto. }
  { destruct (read_info m fs1); try discriminate. eauto. }
  { apply SD. }
  { apply LO. }
  { intros b Hb. destruct (SC [] m d r eq_refl b Hb) as (up & down & A & B). cbn [map] in A. rewrite app_nil_r in A. eauto. }
  assert (ONE : forall rest, exists t, regenerate_each ls bs (last (map Some earlier) None) (m :: rest) fs =
             (let '(o, f, t') := regenerate_each ls bs (Some m) rest fs2 in (o, f, t ++ t'))).
  { intros rest. cbn [regenerate_each]. unfold fbind at 1. unfold fs_db at 1, fbind at 1. rewrite ensure_dir_there by apply SD. unfold fread.
    rewrite (stored_schema fs m d OK SD ls PL). unfold fbind at 1, fread.
    replace (match last (map Some earlier) None with Some p => fs_get fs p | None => None end) with (last (map Some earlier) None).
    2:{ destruct (last (map Some earlier) None) as [p|]; [|reflexivity]. symmetry. apply fs_get_dir. split; [reflexivity|apply FS]. }
    unfold fbind at 1. rewrite E1. unfold fbind at 1. rewrite E2. destruct (regenerate_each ls bs (Some m) rest fs2) as [[o f] t'].
    eexists. rewrite !app_assoc. reflexivity. }
  destruct (ONE []) as [t3 R1]. cbn [regenerate_each fret] in R1.
  assert (ND1 : NoDup (earlier ++ map fst [(m, d)])).
  { cbn. change (NoDup (earlier ++ [m] ++ map fst r)) in ND. rewrite app_assoc in ND. now apply NoDup_app_iff in ND as (ND & _). }
  assert (NL1 : [(m, d)] <> [] -> ~ In l (earlier ++ removelast (map fst [(m, d)]))).
  { intros _ X. apply NL; [discriminate|]. cbn in X. rewrite app_nil_r in X. apply in_or_app. auto. }
  assert (L1 : laid_chain fs earlier dp [(m, d)]) by (constructor; [exact LO|constructor]).
  destruct (regenerate_loop ls bs l PL NB [(m, d)] earlier dp fs tt fs2 _ OK FS BF ND1 GS NL1 L1 R1) as (OK2 & ST2 & SO2 & LC2 & _).
  inversion LC2 as [|? ? ? ? ? LO2 _]; subst.
  assert (SO : forall x, x <> m -> mget x (fs_dirs fs2) = mget x (fs_dirs fs)) by (intros x Nx; apply SO2; intros [X|[]]; cbn in X; congruence).
  assert (LR2 : laid_chain fs2 (earlier ++ [m]) d r).
  { apply (laid_chain_alike fs); [| |exact LR].
    - intros n Hn. assert (Nn : n <> m) by (intros ->; tauto).
      assert (G : forall k, get_file n k fs2 = get_file n k fs) by (intros k; unfold get_file; now rewrite SO).
      split; [|split; [intros; apply G|rewrite (read_info_same n fs fs2) by apply G; auto]].
      destruct (laid_in _ _ _ _ _ LR Hn) as (? & ? & ? & LX & _). unfold has_dir. rewrite SO by exact Nn. apply LX.
    - intros b x f Hb Hf. destruct (string_dec b m) as [->|Nb].
      + rewrite (laid_tables fs fs2 earlier dp m d (table_file x) LO LO2 (table_file_ends x)). exact Hf.
      + unfold get_file in *. now rewrite SO. }
  assert (D2 : forall n, has_dir fs n -> has_dir fs2 n).
  { intros n Hn. destruct (string_dec n m) as [->|Nn]; [apply LO2|]. unfold has_dir. now rewrite SO. }
  assert (EL2 : fs_latest fs2 = fs_latest fs) by (apply latest_alike; auto; congruence).
  destruct (IH (earlier ++ [m]) d fs2 OK2) as (fs' & tr & E); auto.
  - rewrite last_some. apply LO2.
  - rewrite last_some. intros f fi x b [= <-] Ei Hx. apply in_or_app. left. eapply (lo_bases _ _ _ _ _ LO2); eauto.
  - rewrite <- app_assoc. exact ND.
  - unfold get_state in *. now rewrite ST2.
  - intros Nr. rewrite <- app_assoc. cbn [app]. specialize (NL ltac:(discriminate)). destruct r as [|p r]; [congruence|exact NL].
  - congruence.
  - rewrite <- app_assoc. cbn [app]. apply (chain_alike fs); auto. intros n Hn. destruct (string_dec n m) as [->|Nn].
    + now rewrite (lo_from _ _ _ _ _ LO2), (lo_from _ _ _ _ _ LO).
    + rewrite (read_info_same n fs fs2); [reflexivity|]. unfold get_file. now rewrite SO.
  - intros a n d' q -> b Hb. destruct (SC ((m, d) :: a) n d' q eq_refl b Hb) as (up & down & A & B). exists up, down. split; [|exact B].
    cbn [map fst snd] in A. rewrite last_cons in A. rewrite <- app_assoc. exact A.
  - cbn [map fst]. destruct (ONE (map fst r)) as [t4 R4]. rewrite R4. rewrite last_some in E. rewrite E. eexists _, _. reflexivity.
Qed.
Lemma regenerate_runs ls gb fs made bs : listing ls -> laid_store fs made -> latest_backends gb fs = Ok bs ->
  NoDup (map b_name bs) ->
  (forall a n d q, made = a ++ (n, d) :: q -> forall b, In b bs -> exists up down,
     scripts_of bs (last (map Some (map fst a)) None) (last (map snd a) adb_new) d b up down /\ up <> ""%string /\ down <> ""%string) ->
  exists fs' tr, cli_regenerate ls gb fs = (Ok tt, fs', tr).
Proof.
  intros PL H EB NB SC. unfold cli_regenerate, fbind, fread. rewrite EB, (laid_all _ _ H).
  pose proof (laid_names _ _ H) as ND. pose proof (laid_latest _ _ H) as EL.
  destruct (fs_latest fs) as [l|] eqn:El; [|unfold latest_backends in EB; rewrite El in EB; discriminate].
  destruct (regenerate_loop_runs ls bs l PL NB made [] adb_new fs) as (fs' & tr & E); auto.
  - apply H.
  - reflexivity.
  - intros f fi x b [=].
  - rewrite (ls_state _ _ H), El. reflexivity.
  - intros Ne. cbn [app]. destruct made as [|p r _] using rev_ind; [congruence|].
    rewrite map_app in *. cbn [map] in *. rewrite last_some in EL. injection EL as ->. rewrite removelast_last.
    intros X. apply NoDup_remove_2 in ND. now rewrite app_nil_r in ND.
  - apply H.
  - apply H.
  - cbn [map last] in E. rewrite E. eexists _, _. reflexivity.
Qed.
