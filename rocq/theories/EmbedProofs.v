(** Proofs about embedded migrations. *)
From Verif Require Import Base SqlVal Query Json Adb AdbSpec AdbProofs ResolveSpec ResolveProofs Chain ChainSpec ChainProofs
  Store StoreSpec StoreProofs FsStore FsSpec FsProofs JsonForm JsonSpec JsonProofs JsonRound JsonTorn ConnSpec Embed EmbedSpec.
Open Scope nat_scope.

(** * Raw literals *)

(** Reading on, the character before being a double quote or not: [None] when a double
    quote is followed by [#]. *)
Fixpoint look (q : bool) (s : string) : option bool :=
  match s with
  | "" => Some q
  | String c r => if q && Ascii.eqb c "#" then None else look (Ascii.eqb c dquote) r
  end%string.
Lemma look_app a : forall q b, look q (a ++ b)%string = match look q a with None => None | Some q' => look q' b end.
Proof. induction a as [|c a IH]; intros q b; cbn; [reflexivity|]. destruct (q && Ascii.eqb c "#"); [reflexivity|apply IH]. Qed.
Definition opens (b : bool) (s : string) : string := if b then String dquote s else s.
Lemma raw_step c s : raw_literal (String c s) =
  match s with
  | String h r' => if Ascii.eqb c dquote && Ascii.eqb h "#" then Some (""%string, r')
                   else option_map (fun p => (String c (fst p), snd p)) (raw_literal s)
  | EmptyString => None
  end.
Proof. destruct s; reflexivity. Qed.
Lemma raw_ends t : forall r, look false t <> None -> raw_literal (t ++ String dquote (String "#" r)) = Some (t, r).
Proof.
  enough (H : forall q r, look q t <> None -> q = false \/ t = ""%string \/ (exists c t', t = String c t' /\ Ascii.eqb c "#" = false) ->
    raw_literal (t ++ String dquote (String "#" r)) = Some (t, r)).
  { intros r H0. apply (H false); auto. }
  induction t as [|c t IH]; intros q r H Hq; [reflexivity|]. cbn [append]. rewrite raw_step.
  cbn [look] in H. destruct (q && Ascii.eqb c "#"); [congruence|].
  assert (X : Ascii.eqb c dquote = false \/ t = ""%string \/ (exists c t', t = String c t' /\ Ascii.eqb c "#" = false)).
  { destruct (Ascii.eqb c dquote); [right|now left]. destruct t as [|d t]; [now left|right]. exists d, t. split; [reflexivity|].
    cbn [look andb] in H. destruct (Ascii.eqb d "#"); [now elim H|reflexivity]. }
  rewrite (IH _ r H X). destruct t as [|d t]; cbn [append].
  - now rewrite andb_false_r.
  - cbn [look] in H. destruct (Ascii.eqb c dquote); cbn [andb] in *; [|reflexivity]. destruct (Ascii.eqb d "#"); [now elim H|reflexivity].
Qed.
Lemma raw_short t : forall r, look false t = None -> exists a b, raw_literal (t ++ r) = Some (a, b) /\ (String.length a < String.length t)%nat.
Proof.
  enough (H : forall q r, look q t = None -> (q = true /\ exists t', t = String "#" t') \/
     exists a b, raw_literal (t ++ r) = Some (a, b) /\ String.length a < String.length t).
  { intros r H0. destruct (H false r H0) as [[X _]|X]; [discriminate|exact X]. }
  induction t as [|c t IH]; intros q r H; [discriminate|]. cbn [look] in H.
  destruct (q && Ascii.eqb c "#") eqn:E.
  - apply andb_true_iff in E as [-> E]. apply Ascii.eqb_eq in E as ->. left. eauto.
  - right. cbn [append]. rewrite raw_step. destruct (IH _ r H) as [[E1 (t' & ->)]|(a & b & Ea & L)].
    + cbn [append]. rewrite E1. cbn. exists ""%string, (t' ++ r)%string. split; [reflexivity|cbn; lia].
    + destruct (t ++ r)%string as [|h r'] eqn:Et; [discriminate|].
      destruct (Ascii.eqb c dquote && Ascii.eqb h "#").
      * exists ""%string, r'. split; [reflexivity|cbn; lia].
      * rewrite Ea. exists (String c a), b. split; [reflexivity|cbn; lia].
Qed.
Lemma strip_app a b : strip a (a ++ b) = Some b.
Proof. induction a as [|c a IH]; cbn; [now destruct b|]. now rewrite Ascii.eqb_refl. Qed.
Lemma source_app t : embed_source t = (meant_before ++ (t ++ String dquote (String "#" meant_after)))%string.
Proof. reflexivity. Qed.
Theorem source_compiles t : compiled (embed_source t) = Some t <-> look false t <> None.
Proof.
  unfold compiled. rewrite source_app, strip_app. split.
  - intros H N. destruct (raw_short t (String dquote (String "#" meant_after)) N) as (a & b & E & L). rewrite E in H.
    destruct (String.eqb b meant_after); [|discriminate]. injection H as ->. lia.
  - intros H. rewrite (raw_ends t meant_after H). now rewrite String.eqb_refl.
Qed.

(** * Written values *)

Lemma fits_look s : fits s <-> look true s <> None.
Proof.
  unfold fits. split.
  - intros [A B] H.
    assert (X : forall s q, look q s = None -> (q = true /\ exists r, s = String "#" r) \/ exists a b, s = (a ++ String dquote (String "#" b))%string).
    { clear. induction s as [|c s IH]; intros q H; [discriminate|]. cbn in H. destruct (q && Ascii.eqb c "#") eqn:E.
      - apply andb_true_iff in E as [-> E]. apply Ascii.eqb_eq in E as ->. eauto.
      - right. destruct (IH _ H) as [[E1 (r & ->)]|(a & b & ->)].
        + apply Ascii.eqb_eq in E1 as ->. now exists ""%string, r.
        + now exists (String c a), b. }
    destruct (X s true H) as [[_ Y]|Y]; contradiction.
  - intros H. split.
    + intros [r ->]. now apply H.
    + intros (a & b & ->). apply H. rewrite look_app. destruct (look true a) as [q|]; [|reflexivity].
      cbn. now destruct q.
Qed.
Lemma escape_look c q : look q (json_escape c) = look q (String c "").
Proof. destruct c as [[] [] [] [] [] [] [] []], q; reflexivity. Qed.
Lemma escaped_look s : forall q, look q (json_escaped s) = look q s.
Proof.
  induction s as [|c s IH]; intros q; [reflexivity|]. cbn [json_escaped]. rewrite look_app, escape_look. cbn [look].
  destruct (q && Ascii.eqb c "#"); [reflexivity|]. apply IH.
Qed.

Definition good (s : string) (P : Prop) : Prop :=
  (P /\ exists q, look false s = Some q) \/ (~ P /\ look false s = None).
Lemma good_iff s P Q : (P <-> Q) -> good s P -> good s Q.
Proof. unfold good. tauto. Qed.
Lemma good_char c s P : Ascii.eqb c "#" = false -> Ascii.eqb c dquote = false -> good s P -> good (String c s) P.
Proof. unfold good. cbn [look]. now intros -> ->. Qed.
Lemma good_app a P b Q c r : good a P -> b = String c r -> Ascii.eqb c "#" = false -> good b Q -> good (a ++ b) (P /\ Q).
Proof.
  unfold good. rewrite look_app. intros [[HP [q E]]|[HP E]] -> Hc HQ; rewrite E; [|right; tauto].
  assert (X : look q (String c r) = look false (String c r)) by (cbn; now rewrite Hc, andb_false_r).
  rewrite X. destruct HQ as [[HQ [q' Eq]]|[HQ Eq]]; rewrite Eq; [left|right]; split; try tauto. eauto.
Qed.
Lemma good_string s : good (json_string s) (fits s).
Proof.
  unfold good, json_string. cbn [look]. rewrite Ascii.eqb_refl. cbn. rewrite look_app, escaped_look.
  destruct (look true s) as [q|] eqn:E.
  - left. split; [apply fits_look; congruence|]. cbn. exists true. now destruct q.
  - right. split; [|reflexivity]. rewrite fits_look. congruence.
Qed.
Lemma good_indent n s P : good s P -> good (indent n ++ s) P.
Proof. intros H. induction n as [|n IH]; [exact H|]. cbn. apply good_char; [reflexivity|reflexivity|]. apply good_char; [reflexivity|reflexivity|exact IH]. Qed.
Lemma good_gap lay s P : good s P -> good (gap lay ++ s) P.
Proof. intros H. destruct lay as [n|]; [|exact H]. cbn. apply good_char; [reflexivity|reflexivity|]. now apply good_indent. Qed.
Lemma good_plain s : (forall c, In c (list_ascii_of_string s) -> Ascii.eqb c "#" = false /\ Ascii.eqb c dquote = false) -> good s True.
Proof.
  induction s as [|c s IH]; intros H; [left; cbn; eauto|].
  apply good_char; [apply H; now left|apply H; now left|]. apply IH. intros d Hd. apply H. now right.
Qed.
Lemma numeral_plain s : numeral s -> good s True.
Proof.
  intros H. apply good_plain. intros c Hc. specialize (H c Hc). cbn in H.
  repeat (destruct H as [<-|H]; [split; reflexivity|]). destruct H.
Qed.
Lemma uint_numeral u : numeral (DecimalString.NilEmpty.string_of_uint u).
Proof. induction u; intros c; cbn; [intros []|..]; (intros [<-|Hc]; [cbn; tauto|apply IHu, Hc]). Qed.
Lemma dec_numeral z : numeral (dec z).
Proof.
  unfold dec, DecimalString.NilEmpty.string_of_int. destruct (Z.to_int z) as [u|u]; [apply uint_numeral|].
  intros c [<-|H]; [cbn; tauto|]. eapply uint_numeral, H.
Qed.

Section Written.
  Variable show : f64 -> string.
  Lemma elems_good lay l : Forall (fun v => forall lay, good (write show lay v) (Forall fits (strings v))) l -> l <> [] ->
    good ((fix elems (l : list json) : string :=
             match l with
             | [] => ""
             | [x] => gap (inner lay) ++ write show (inner lay) x
             | x :: r => gap (inner lay) ++ write show (inner lay) x ++ "," ++ elems r
             end) l)%string (Forall fits (flat_map strings l)).
  Proof.
    induction 1 as [|x l Hx Hl IH]; intros N; [congruence|]. destruct l as [|y l].
    - apply good_gap. cbn [flat_map]. rewrite app_nil_r. apply Hx.
    - apply good_gap. cbn [flat_map]. eapply good_iff; [symmetry; apply Forall_app|].
      eapply good_app; [apply Hx|reflexivity|reflexivity|].
      change ("," ++ ?s)%string with (String "," s). apply good_char; [reflexivity|reflexivity|]. apply IH. congruence.
  Qed.
  Lemma mems_good lay l : Forall (fun m => forall lay, good (write show lay (snd m)) (Forall fits (strings (snd m)))) l -> l <> [] ->
    good ((fix mems (l : list (string * json)) : string :=
             match l with
             | [] => ""
             | [(k, x)] => gap (inner lay) ++ json_string k ++ colon lay ++ write show (inner lay) x
             | (k, x) :: r => gap (inner lay) ++ json_string k ++ colon lay ++ write show (inner lay) x ++ "," ++ mems r
             end) l)%string (Forall fits (flat_map (fun m => fst m :: strings (snd m)) l)).
  Proof.
    assert (C : forall k s P, good s P -> good (json_string k ++ colon lay ++ s) (fits k /\ P)).
    { intros k s P H. destruct lay; cbn [colon]; (eapply good_app; [apply good_string|reflexivity|reflexivity|]);
        repeat (apply good_char; [reflexivity|reflexivity|]); exact H. }
    induction 1 as [|[k x] l Hx Hl IH]; intros N; [congruence|]. cbn [fst snd] in *. destruct l as [|y l].
    - apply good_gap. cbn [flat_map fst snd]. rewrite app_nil_r. eapply good_iff; [symmetry; apply Forall_cons_iff|].
      apply C, Hx.
    - apply good_gap. cbn [flat_map fst snd]. rewrite <- app_comm_cons. eapply good_iff; [symmetry; apply Forall_cons_iff|].
      apply C. eapply good_iff; [symmetry; apply Forall_app|].
      eapply good_app; [apply Hx|reflexivity|reflexivity|].
      change ("," ++ ?s)%string with (String "," s). apply good_char; [reflexivity|reflexivity|]. apply IH. congruence.
  Qed.
  Lemma Forall_nil_True {A} (P : A -> Prop) : True <-> Forall P [].
  Proof. split; [constructor|trivial]. Qed.
  Lemma close_good lay a P c : good a P -> Ascii.eqb c "#" = false -> Ascii.eqb c dquote = false -> good (a ++ gap lay ++ String c "")%string P.
  Proof.
    intros H E1 E2. assert (X : good (gap lay ++ String c "") True).
    { apply good_gap, good_char; [exact E1|exact E2|]. left. cbn. eauto. }
    apply (good_iff _ (P /\ True)); [tauto|]. destruct lay as [n|]; cbn [gap] in *.
    - eapply good_app; [exact H|reflexivity|reflexivity|exact X].
    - eapply good_app; [exact H|reflexivity|exact E1|exact X].
  Qed.
  Theorem write_good v : (forall r, f64_finite r = true -> numeral (show r)) ->
    forall lay, good (write show lay v) (Forall fits (strings v)).
  Proof.
    intros HS. induction v as [| b | z | r | s | l IH | l IH ] using json_ind'; intros lay; cbn [strings].
    - left. cbn. eauto.
    - left. destruct b; cbn; eauto.
    - eapply good_iff; [apply Forall_nil_True|]. apply numeral_plain, dec_numeral.
    - eapply good_iff; [apply Forall_nil_True|]. cbn [write]. destruct (f64_finite r) eqn:E.
      + apply numeral_plain, HS, E.
      + left. cbn. eauto.
    - eapply good_iff; [|apply good_string]. split; [auto|]. intros H. inversion H; assumption.
    - destruct l as [|x l]; [left; cbn; eauto|].
      change (write show lay (JArr (x :: l))) with ("[" ++ (fix elems (l : list json) : string :=
             match l with
             | [] => ""
             | [x] => gap (inner lay) ++ write show (inner lay) x
             | x :: r => gap (inner lay) ++ write show (inner lay) x ++ "," ++ elems r
             end) (x :: l) ++ gap lay ++ "]")%string.
      apply good_char; [reflexivity|reflexivity|]. apply close_good; [|reflexivity|reflexivity]. exact (elems_good lay (x :: l) IH ltac:(congruence)).
    - destruct l as [|x l]; [left; cbn; eauto|].
      change (write show lay (JObj (x :: l))) with ("{" ++ (fix mems (l : list (string * json)) : string :=
             match l with
             | [] => ""
             | [(k, x)] => gap (inner lay) ++ json_string k ++ colon lay ++ write show (inner lay) x
             | (k, x) :: r => gap (inner lay) ++ json_string k ++ colon lay ++ write show (inner lay) x ++ "," ++ mems r
             end) (x :: l) ++ gap lay ++ "}")%string.
      apply good_char; [reflexivity|reflexivity|]. apply close_good; [|reflexivity|reflexivity]. exact (mems_good lay (x :: l) IH ltac:(congruence)).
  Qed.
  Theorem embed_fits v : (forall r, f64_finite r = true -> numeral (show r)) ->
    (compiled (embed_source (to_string_pretty show v)) = Some (to_string_pretty show v) <-> Forall fits (strings v)).
  Proof.
    intros HS. rewrite source_compiles. destruct (write_good v HS (Some O)) as [[H [q E]]|[H E]]; unfold to_string_pretty; rewrite E.
    - split; [auto|congruence].
    - split; [congruence|contradiction].
  Qed.
End Written.

(** * The store *)

Lemma ofold_app {A B} (f : B -> A -> outcome B) l1 l2 b : ofold f (l1 ++ l2) b = do c <- ofold f l1 b; ofold f l2 c.
Proof. revert b. induction l1 as [|x l1 IH]; intros b; cbn; [reflexivity|]. destruct (f b x); cbn; auto. Qed.
Lemma ofold_inv {A B} (P : B -> Prop) (f : B -> A -> outcome B) l :
  (forall b x b', f b x = Ok b' -> P b -> P b') -> forall b c, P b -> ofold f l b = Ok c -> P c.
Proof.
  intros H. induction l as [|x l IH]; intros b c Hb; cbn; [now intros [= <-]|].
  destruct (f b x) as [b'| |] eqn:E; cbn; try discriminate. apply IH. eauto.
Qed.
Lemma copy_sorted src name m : copy_migration src (mem_migration name) = Ok m -> msorted (mm_up m) /\ msorted (mm_down m).
Proof.
  unfold copy_migration. destruct (mv_from src) as [f| |]; try discriminate. cbn [obind].
  destruct (mv_db src) as [d| |]; try discriminate. cbn [obind].
  destruct (ofold mm_add_table _ _) as [m1| |] eqn:E1; try discriminate. cbn [obind].
  destruct (ofold _ (a_types d) m1) as [m2| |] eqn:E2; try discriminate. cbn [obind].
  destruct (mv_backends src) as [bs| |]; try discriminate. cbn [obind]. intros E3.
  set (P := fun m : MemMigration => msorted (mm_up m) /\ msorted (mm_down m)).
  change (P m). eapply (ofold_inv P); [|eapply (ofold_inv P); [|eapply (ofold_inv P); [|..|exact E1]|exact E2]|exact E3].
  - intros b x b' E. cbn beta in E. destruct (mv_up src x) as [[u|]| |]; cbn in E; try discriminate E; destruct (mv_down src x) as [[w|]| |]; cbn in E; try discriminate E;
      apply ok_inj in E as <-; auto. intros [A B]. split; cbn; now apply mput_sorted.
  - intros b [k t] b'. cbn. unfold mm_add_type. destruct (resolve_types _) as [[a [[]| |]]| |]; cbn; intros E; try discriminate E; apply ok_inj in E as <-; auto.
  - intros b x b'. unfold mm_add_table. destruct (resolve_types _) as [[a [[]| |]]| |]; cbn; intros E; try discriminate E; apply ok_inj in E as <-; auto.
  - split; constructor.
Qed.

Definition held (ls : list string -> list string) (fs : FS) (n : string) (m : MemMigration) : Prop :=
  mirrors ls fs n m /\ msorted (mm_up m) /\ msorted (mm_down m) /\ fs_read_db ls n fs = Ok (mm_db m).
Lemma copy_held ls fs n : readable ls fs n ->
  exists m, copy_migration (fs_view ls n fs) (mem_migration n) = Ok m /\ held ls fs n m.
Proof.
  intros (i & d & Ei & ND & Ed & St & W & HS).
  destruct (copy_preserves (fs_view ls n fs) n (in_from i) d (in_backends i)) as (m & E & En & Ef & Eb & Er & Hs & Ho); cbn [fs_view mv_from mv_db mv_backends mv_up mv_down].
  - now rewrite Ei.
  - exact Ed.
  - now rewrite Ei.
  - exact ND.
  - intros b Hb. destruct (HS b Hb) as (u & w & A & B). eauto.
  - eapply fs_result, Ed.
  - exact St.
  - exact W.
  - exists m. split; [exact E|]. destruct (copy_sorted _ _ _ E) as [S1 S2].
    assert (HB : forall b, In b (in_backends i) -> read_sql n b "up" fs = Ok (mget b (mm_up m)) /\ read_sql n b "down" fs = Ok (mget b (mm_down m))
       /\ mget b (mm_up m) <> None /\ mget b (mm_down m) <> None).
    { intros b Hb. destruct (HS b Hb) as (u & w & A & B). destruct (Hs b u w Hb A B) as [-> ->]. repeat split; congruence. }
    split; [|split; [exact S1|split; [exact S2|now rewrite Eb]]].
    split; [exact En|]. split.
    + exists i. split; [exact Ei|]. split; [exact Ef|].
      assert (D : forall b, In b (in_backends i) \/ ~ In b (in_backends i)) by (intros b; destruct (in_dec string_dec b (in_backends i)); auto).
      split; [|split].
      * intros b. rewrite mget_keys. split.
        -- intros Hb. destruct (HB b Hb) as (_ & _ & N & _). destruct (mget b (mm_up m)); [eauto|congruence].
        -- intros [v Hv]. destruct (D b) as [Hb|Hb]; [exact Hb|]. destruct (Ho b Hb). congruence.
      * intros b. rewrite mget_keys. split.
        -- intros Hb. destruct (HB b Hb) as (_ & _ & _ & N). destruct (mget b (mm_down m)); [eauto|congruence].
        -- intros [v Hv]. destruct (D b) as [Hb|Hb]; [exact Hb|]. destruct (Ho b Hb). congruence.
      * intros b Hb. destruct (HB b Hb) as (A & B & _). auto.
    + exists d. split; [exact Ed|exact Er].
Qed.
Definition embed_step (ls : list string -> list string) (fs : FS) (s : MemStore) (n : string) : outcome MemStore :=
  do m <- copy_migration (fs_view ls n fs) (mem_migration n); Ok (mem_add s m).
Definition state_of (ls : list string -> list string) (fs : FS) (l : list string) (s : MemStore) (l' : list MemMigration) : Prop :=
  mem_wf s /\ chain (mem_coll s) l' /\ Forall2 (held ls fs) l l'
  /\ (forall n m, mem_get s n = Some m <-> In m l' /\ mm_name m = n)
  /\ ms_current s = mem_migration "current".
Lemma held_names ls fs l l' : Forall2 (held ls fs) l l' -> map mm_name l' = l.
Proof. induction 1 as [|n m l l' H F IH]; [reflexivity|]. cbn. destruct H as [[-> _] _]. now rewrite IH. Qed.
Lemma embed_snoc ls fs l s l' n : state_of ls fs l s l' -> ~ In n l -> readable ls fs n ->
  omap in_from (read_info n fs) = Ok (option_map mm_name (mem_latest s)) ->
  exists s' m, embed_step ls fs s n = Ok s' /\ state_of ls fs (l ++ [n]) s' (l' ++ [m]) /\ mem_latest s' = Some m /\ mm_name m = n.
Proof.
  intros (W & C & F & G & Cu) N R Fr. destruct (copy_held ls fs n R) as (m & E & H).
  pose proof H as ((En & (i & Ei & Ef & _) & _) & _). rewrite Ei in Fr. cbn in Fr. injection Fr as Fr. rewrite Fr in Ef.
  assert (Fresh : mem_get s (mm_name m) = None).
  { destruct (mem_get s (mm_name m)) as [x|] eqn:X; [|reflexivity]. apply G in X as [X1 X2]. exfalso. apply N.
    rewrite <- (held_names _ _ _ _ F), <- En, <- X2. now apply in_map. }
  exists (mem_add s m), m. unfold embed_step. rewrite E. cbn [obind]. split; [reflexivity|].
  split; [|split; [now apply mem_add_latest|exact En]].
  split; [now apply mem_add_wf|]. split; [now apply mem_add_chain|]. split; [apply Forall2_app; auto|]. split; [|exact Cu].
  intros k x. rewrite mem_add_get by exact W. rewrite in_app_iff. cbn [In]. destruct (String.eqb_spec k (mm_name m)) as [->|Nk].
  - split; [intros [= <-]; auto|]. intros [[X|[<-|[]]] E1]; [|reflexivity]. exfalso.
    assert (mem_get s (mm_name x) = Some x) as Y by (apply G; auto). rewrite E1 in Y. congruence.
  - rewrite G. split; [intros [A B]; auto|]. intros [[X|[<-|[]]] E1]; [auto|congruence].
Qed.
Lemma embed_chain ls fs n l : chain_to (fs_coll fs) n l -> NoDup l -> Forall (readable ls fs) l ->
  exists s l' m, ofold (embed_step ls fs) l mem_new = Ok s /\ state_of ls fs l s l' /\ mem_latest s = Some m /\ mm_name m = n.
Proof.
  induction 1 as [n F|n p l (k & Ek & Gk) C IH]; intros ND R.
  - destruct (embed_snoc ls fs [] mem_new [] n) as (s' & m & E & St & L & Hm).
    + split; [|split; [reflexivity|split; [constructor|split; [|reflexivity]]]].
      * split; [constructor|]. split; [intros ? ? []|discriminate].
      * intros x y. split; [discriminate|intros [[] _]].
    + intros [].
    + now inversion R.
    + exact F.
    + exists s', [m], m. split; [|auto]. cbn [ofold]. rewrite E. reflexivity.
  - apply Forall_app in R as [R1 R2]. pose proof (NoDup_remove_2 _ _ _ ND) as Nn. rewrite app_nil_r in Nn.
    apply NoDup_remove_1 in ND. rewrite app_nil_r in ND. destruct (IH ND R1) as (s & l' & m0 & E & St & L & Hm).
    destruct (embed_snoc ls fs l s l' n St Nn) as (s' & m & E' & St' & L' & Hm').
    + now inversion R2.
    + rewrite L. cbn. rewrite Hm. cbn in Ek, Gk. apply fs_get_dir in Gk as [-> _]. exact Ek.
    + exists s', (l' ++ [m]), m. split; [|auto]. rewrite ofold_app, E. cbn. rewrite E'. reflexivity.
Qed.
Lemma embed_held ls fs l : chain (fs_coll fs) l -> Forall (readable ls fs) l ->
  exists s l', embed_store ls fs = Ok s /\ state_of ls fs l s l'.
Proof.
  intros C R. unfold embed_store. rewrite (chain_all _ (fs_coherent fs) l C). cbn [obind].
  change (fun s n => do m <- copy_migration (fs_view ls n fs) (mem_migration n); Ok (mem_add s m)) with (embed_step ls fs).
  pose proof (chain_NoDup _ (fs_coherent fs) l C) as ND. unfold names in ND. cbn in ND. rewrite map_id in ND.
  unfold chain in C. destruct (cl_latest (fs_coll fs)) as [n|].
  - destruct (embed_chain ls fs n l C ND R) as (s & l' & _ & E & St & _). eauto.
  - subst l. exists mem_new, []. split; [reflexivity|]. split; [|split; [reflexivity|split; [constructor|split; [|reflexivity]]]].
    + split; [constructor|]. split; [intros ? ? []|discriminate].
    + intros x y. split; [discriminate|intros [[] _]].
Qed.
Lemma Forall2_in_r {A B} (R : A -> B -> Prop) l l' y : Forall2 R l l' -> In y l' -> exists x, In x l /\ R x y.
Proof. induction 1 as [|a b l l' H F IH]; intros []; [subst; exists a; cbn; auto|]. destruct (IH H0) as (x & X & Y). exists x. cbn. auto. Qed.
Lemma held_storable show pg_of ls fs l s l' : state_of ls fs l s l' ->
  (forall n d, In n l -> fs_read_db ls n fs = Ok d -> storable_adb show pg_of d) -> storable_store show pg_of s.
Proof.
  intros (W & C & F & G & Cu) H. split; [apply W|]. split.
  - apply Forall_forall. intros [k m] Hm. cbn.
    assert (X : mem_get s k = Some m) by (apply In_mget; [apply W|exact Hm]).
    apply G in X as [X _]. destruct (Forall2_in_r _ _ _ _ F X) as (n & Hn & _ & S1 & S2 & D).
    split; [now apply (H n)|auto].
  - rewrite Cu. split; [|split; constructor]. split; [constructor|]. split; [constructor|]. split; constructor.
Qed.
Theorem embed_store_same ls fs l : chain (fs_coll fs) l -> Forall (readable ls fs) l ->
  exists s, embed_store ls fs = Ok s /\ same_migrations ls fs s.
Proof.
  intros C R. destruct (embed_held ls fs l C R) as (s & l' & E & St). exists s. split; [exact E|].
  destruct St as (W & C' & F & G & _). exists l, l'. split; [apply chain_all; [apply fs_coherent|exact C]|].
  split; [apply chain_all; [now apply mem_coherent|exact C']|]. split; [|exact G].
  eapply Forall2_impl; [|exact F]. intros a b X. apply X.
Qed.
Theorem embed_correct show pg_of ls p l b :
  (forall r, f64_finite r = true -> numeral (show r)) ->
  pj_src p = true -> cli_load p = Ok b -> chain (fs_coll (pj_fs p)) l -> Forall (readable ls (pj_fs p)) l ->
  (forall n d, In n l -> fs_read_db ls n (pj_fs p) = Ok d -> storable_adb show pg_of d) ->
  exists src s j,
    embed show pg_of ls p = (Ok tt, {| pj_fs := pj_fs p; pj_src := true; pj_source := Some src; pj_cli := Some (clistate_text show true) |})
    /\ ser_store pg_of s = Ok j /\ same_migrations ls (pj_fs p) s
    /\ (Forall fits (strings j) -> embedded_migrations show src = Some (Ok s))
    /\ (~ Forall fits (strings j) -> compiled src <> Some (to_string_pretty show j)).
Proof.
  intros HS Hs Hc C R HD. destruct (embed_held ls _ l C R) as (s & l' & E & St).
  destruct (embed_store_same ls _ l C R) as (s0 & E0 & SM). rewrite E in E0. apply JsonTorn.ok_inj in E0. subst s0.
  pose proof (held_storable show pg_of ls _ l s l' St HD) as Sto.
  destruct (store_reads show pg_of s Sto) as (t & Et & Rt). unfold store_text in Et.
  destruct (ser_store pg_of s) as [j| |] eqn:Ej; cbn [obind] in Et; try discriminate. apply JsonTorn.ok_inj in Et. subst t.
  exists (embed_source (to_string_pretty show j)), s, j. split; [|split; [exact Ej|split; [exact SM|split]]].
  - unfold embed. rewrite Hs, E. cbn [obind]. unfold store_text. rewrite Ej. cbn [obind].
    change (cli_load (set_source p ?x)) with (cli_load p). rewrite Hc. unfold set_cli, set_source. cbn. now rewrite Hs.
  - intros H. apply (embed_fits show j HS) in H. unfold embedded_migrations. rewrite H. cbn. now rewrite Rt.
  - intros H X. apply H, (embed_fits show j HS). exact X.
Qed.

(** * Migrations created on disk can be embedded *)
Section Created.
  Variable show : f64 -> string.
  Variable pg_of : string -> pgtype.
  Variable ls : list string -> list string.
  Definition embeddable (fs : FS) (n : string) : Prop :=
    readable ls fs n /\ forall d, fs_read_db ls n fs = Ok d -> storable_adb show pg_of d.
  Lemma embeddable_same name fs x n : same_outside name fs x -> ~ has_dir fs name -> n <> name -> embeddable fs n -> embeddable x n.
  Proof.
    intros SO NH N [(i & d & Ei & ND & Ed & St & W & HS) HD].
    assert (Ed' : fs_read_db ls n x = Ok d) by (eapply read_same; eauto).
    split.
    - exists i, d. split; [rewrite (read_info_same n fs x); [exact Ei|eapply get_file_same; eauto]|].
      repeat (split; [assumption|]). intros b Hb. destruct (HS b Hb) as (u & w & A & B). exists u, w.
      unfold read_sql in *. now rewrite !(get_file_same name fs x n).
    - intros d' E. rewrite Ed' in E. apply ok_inj in E as <-. now apply HD.
  Qed.
  Lemma chain_has_dir fs l n : chain (fs_coll fs) l -> In n l -> has_dir fs n.
  Proof.
    intros C Hn. unfold chain in C. cbn [cl_latest fs_coll] in C. destruct (fs_latest fs) as [m|] eqn:El; [|subst l; destruct Hn].
    eapply chain_dirs; eauto. now apply latest_dir.
  Qed.
  Lemma created_embeddable bs name to fs d l fs' tr :
    fs_ok fs -> listing ls -> ~ has_dir fs name -> get_state fs = Ok (fs_latest fs) ->
    chain (fs_coll fs) l -> from_schema fs (fs_latest fs) d ->
    wf_schema to -> settled to -> NoDup (map b_name bs) -> storable_adb show pg_of to ->
    fs_create_to ls bs name (fs_latest fs) to fs = (Ok true, fs', tr) ->
    Forall (embeddable fs) l -> Forall (embeddable fs') (l ++ [name]).
  Proof.
    intros OK PL NH GS CH S Wt St ND Sto H HL.
    destruct (fs_created ls bs name to fs d l fs' tr OK PL NH GS CH S Wt St ND H)
      as (_ & OK' & SO & _ & EL & CH' & (d' & SS & Sd' & Hin) & B & Q).
    apply Forall_app. split; [|constructor; [|constructor]].
    - rewrite Forall_forall in *. intros n Hn. apply (embeddable_same name fs); [exact SO|exact NH| |now apply HL].
      intros ->. apply NH. eapply chain_has_dir; eauto.
    - pose proof (stored_schema _ _ _ OK' Sd' ls PL) as RD.
      assert (Sd : storable_adb show pg_of d).
      { destruct (fs_latest fs) as [m|] eqn:El; cbn in S.
        - assert (Hm : In m l).
          { unfold chain in CH. cbn [cl_latest fs_coll] in CH. rewrite El in CH. apply chain_to_last in CH as [a ->]. apply in_or_app. cbn. auto. }
          rewrite Forall_forall in HL. apply (proj2 (HL m Hm)). apply (stored_schema _ _ _ OK S ls PL).
        - subst d. split; [constructor|]. split; [constructor|]. split; constructor. }
      split.
      + destruct (read_info name fs') as [i| |] eqn:Ei; cbn in B; try discriminate. apply ok_inj in B.
        exists i, d'. rewrite B. split; [exact Ei|]. split; [exact ND|]. split; [exact RD|]. split; [apply Sd'|]. split; [apply Sd'|].
        intros b Hb. apply in_map_iff in Hb as (b' & <- & Hb). destruct (Q b' Hb) as (u & w & _ & E1 & E2). eauto.
      + intros d0 E. rewrite RD in E. apply ok_inj in E as <-.
        split; [apply (st_wf _ _ _ Sd')|]. split.
        * apply Forall_forall. intros [k t] Hk. cbn. destruct Sto as (_ & T1 & _), Sd as (_ & T2 & _).
          rewrite Forall_forall in T1, T2. destruct (Hin k t Hk) as [X|X]; [exact (T2 _ X)|exact (T1 _ X)].
        * rewrite (st_types _ _ _ Sd'). split; constructor.
  Qed.
  Lemma history_embeddable bs steps : listing ls -> NoDup (map b_name bs) -> forall fs made d fs' tr,
    holds fs made d -> wf_schema d -> NoDup (map fst steps) ->
    (forall n to, In (n, to) steps -> ~ has_dir fs n /\ wf_schema to /\ settled to /\ storable_adb show pg_of to) ->
    Forall (embeddable fs) (map fst made) ->
    fs_create_all ls bs steps fs = (Ok tt, fs', tr) ->
    exists made', made_of d steps made' /\ (exists d', holds fs' (made ++ made') d') /\ Forall (embeddable fs') (map fst (made ++ made')).
  Proof.
    intros PL NDb. induction steps as [|[n to] steps IH]; intros fs made d fs' tr HO Wd ND HS HL H.
    - cbn in H. injection H as <- <-. exists []. rewrite app_nil_r. split; [constructor|]. eauto.
    - cbn [fs_create_all] in H. unfold fbind at 1, fread in H.
      destruct (HS n to (or_introl eq_refl)) as (NH & Wt & St & Sto). cbn [map fst] in ND. inversion_clear ND as [|? ? Nn ND'].
      destruct (fs_create_to ls bs n (fs_latest fs) to fs) as [[o fs1] t1] eqn:E1.
      destruct (holds_step _ _ _ _ _ _ _ _ _ _ PL NDb HO NH Wt St Wd E1) as (R & SO & _).
      unfold fbind in H. rewrite E1 in H.
      assert (HS' : forall m to', In (m, to') steps -> ~ has_dir fs1 m /\ wf_schema to' /\ settled to' /\ storable_adb show pg_of to').
      { intros m to' Hm. destruct (HS m to' (or_intror Hm)) as (A & B & C). split; [|auto]. intros D. apply A.
        apply (dir_same n fs fs1) in D; auto. intros ->. apply Nn. apply in_map_iff. exists (n, to'). auto. }
      destruct o as [b|e|]; try discriminate.
      destruct (fs_create_all ls bs steps fs1) as [[o2 fs2] t2] eqn:E2. injection H as -> -> <-.
      destruct HO as (OK & GS & CH & (d0 & F0 & S0) & _).
      destruct b.
      + destruct R as [(_ & N & HO')|[X _]]; [|congruence].
        pose proof (created_embeddable bs n to fs d0 _ fs1 t1 OK PL NH GS CH F0 Wt St NDb Sto E1 HL) as HL'.
        change [n] with (map fst [(n, to)]) in HL'. rewrite <- map_app in HL'.
        destruct (IH _ _ _ _ _ HO' Wt ND' HS' HL' E2) as (made' & M & (d' & HO2) & HL2).
        exists ((n, to) :: made'). rewrite <- app_assoc in HO2, HL2. split; [now constructor|]. split; [eauto|exact HL2].
      + destruct R as [(X & _)|(_ & HO' & SS)]; [discriminate|]. specialize (SS eq_refl).
        destruct (fs_not_created _ _ _ _ _ _ _ _ _ OK PL F0 Wt E1) as [-> _].
        destruct (IH _ _ _ _ _ HO' Wd ND' HS' HL E2) as (made' & M & (d' & HO2) & HL2).
        exists made'. split; [now constructor|]. split; [eauto|exact HL2].
  Qed.
  Theorem created_can_be_embedded bs steps fs fs' tr : listing ls -> NoDup (map b_name bs) -> fs_fresh fs -> NoDup (map fst steps) ->
    (forall n to, In (n, to) steps -> fs_get fs n = None /\ wf_schema to /\ settled to /\ storable_adb show pg_of to) ->
    fs_create_all ls bs steps fs = (Ok tt, fs', tr) ->
    exists made, made_of adb_new steps made /\ chain (fs_coll fs') (map fst made) /\ Forall (embeddable fs') (map fst made).
  Proof.
    intros PL NDb F ND HS H. destruct (history_embeddable bs steps PL NDb fs [] adb_new fs' tr) as (made & M & (d & HO) & HL); auto.
    - apply holds_fresh, F.
    - apply empty_wf.
    - intros n to Hn. destruct (HS n to Hn) as (A & B). split; [|exact B]. intros [dir D]. unfold fs_get in A. now rewrite D in A.
    - constructor.
    - exists made. split; [exact M|]. split; [apply HO|exact HL].
  Qed.
End Created.
