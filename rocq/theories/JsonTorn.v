(** Half-written files, and files other versions wrote. *)
From Coq Require Import Sorting.Permutation.
From Verif Require Import Base SqlVal Time Query Json JsonForm JsonSpec JsonProofs JsonRound Adb Store FsStore.
From Verif Require ConnSpec ConnStrProofs.
Import ConnSpec(newline, skip_ws, expect_char, read_string, json_ws, dquote, json_string).

(** * A strict prefix of what was written *)
Lemma prefix_cases (a p q : string) c : (a ++ String c "" = p ++ q)%string -> q <> ""%string ->
  p = a \/ exists q', q' <> ""%string /\ a = (p ++ q')%string.
Proof.
  revert p. induction a as [|x a IH]; intros p E Hq.
  - destruct p as [|y p]; [now left|]. exfalso. cbn in E. injection E as _ E. destruct p, q; cbn in E; congruence.
  - destruct p as [|y p]; [right; exists (String x a); now split|]. cbn in E. injection E as -> E.
    destruct (IH p E Hq) as [->|(q' & N & ->)]; [now left|]. right. now exists q'.
Qed.
Lemma object_is_no_number d p v r l lay show : read_value d p = Some (v, r) ->
  (exists q, write show lay (JObj l) = (p ++ q)%string) -> is_number v = false.
Proof.
  intros H [q E]. destruct p as [|c p]; [rewrite read_value_eq in H; discriminate|].
  assert (c = "{"%char) as ->.
  { destruct l; cbn in E; congruence. }
  rewrite read_value_eq in H. cbn [ConnSpec.skip_ws] in H. change (json_ws "{") with false in H. cbv iota in H.
  change (Ascii.eqb "{" "n") with false in H. change (Ascii.eqb "{" "t") with false in H.
  change (Ascii.eqb "{" "f") with false in H. change (Ascii.eqb "{" dquote) with false in H.
  change (Ascii.eqb "{" "[") with false in H. change (Ascii.eqb "{" "{") with true in H. cbv iota in H.
  destruct d as [|[|d]]; try discriminate.
  destruct (expect_char "}" p); [injection H as <- _; reflexivity|].
  destruct (read_members _ _ p) as [[l' r']|]; [|discriminate]. injection H as <- _. reflexivity.
Qed.
Lemma torn_object show lay l p q : ok show (JObj l) -> (jdepth (JObj l) < 128)%nat -> q <> ""%string ->
  write show lay (JObj l) = (p ++ q)%string -> from_text p = Err SerdeJson.
Proof.
  intros Ho Hd Hq E. unfold from_text. destruct (read_value 128 p) as [[v r]|] eqn:R; [|reflexivity].
  pose proof (object_is_no_number _ _ _ _ l lay show R (ex_intro _ q E)) as N.
  assert (M : read_value 128 (p ++ q) = Some (v, (r ++ q)%string)).
  { apply read_value_more; [|exact R]. congruence. }
  rewrite <- E in M.
  pose proof (written_reads show (JObj l) Ho 128 Hd lay "" I) as W. rewrite ConnStrProofs.sapp_nil in W.
  rewrite W in M. injection M as _ M. destruct r, q; cbn in M; congruence.
Qed.

Definition is_obj (j : json) : Prop := exists l, j = JObj l.
Section Torn.
  Variable show : f64 -> string.
  Variable pg_of : string -> pgtype.

  Lemma text_torn {A} n (de : json -> outcome A) j a lay p q : form show n de j a -> is_obj j -> (n < 128)%nat ->
    (write show lay j ++ newline = p ++ q)%string -> q <> ""%string ->
    (do v <- from_text p; de v) = Ok a \/ (do v <- from_text p; de v) = Err SerdeJson.
  Proof.
    intros F [l ->] Hn E Hq. destruct (prefix_cases _ _ _ _ E Hq) as [->|(q' & N & E')].
    - left. rewrite <- (ConnStrProofs.sapp_nil (write show lay (JObj l))). eapply form_text; [exact F|exact Hn|now left].
    - right. destruct F as (F1 & F2 & _). rewrite (torn_object show lay l p q' F1 ltac:(lia) N E'). reflexivity.
  Qed.
  Definition refused (s : string) (f : file) : Prop :=
    match f with
    | FInfo i => info_of_text s = Err SerdeJson
    | FTable t => table_of_text show s = Err SerdeJson
    | FTypes ts => types_of_text s = Err SerdeJson
    | FState l => state_of_text s = Err SerdeJson
    | FSql q | FTorn q => False
    end.
  Lemma ser_map_obj {K A} (key : K -> string) (f : A -> outcome json) m j : ser_map key f m = Ok j -> is_obj j.
  Proof.
    unfold ser_map, omap, obind. destruct (ser_all _ m); intros [= <-]. now eexists.
  Qed.
  Lemma ok_inj {A} (a b : A) : Ok a = Ok b -> a = b.
  Proof. now intros [=]. Qed.
  Theorem file_torn f s p q : storable show pg_of f -> match f with FSql _ | FTorn _ => False | _ => True end ->
    file_text show pg_of f = Ok s -> s = (p ++ q)%string -> q <> ""%string -> reads_as show p f \/ refused p f.
  Proof.
    intros H K E -> Hq. destruct f as [i|t|ts|x|l|x]; try contradiction;
      cbn [file_text file_json storable reads_as refused] in *.
    - apply ok_inj in E. eapply (text_torn _ _ _ _ (Some O)); [now apply info_form| |lia|exact E|exact Hq]. now eexists.
    - destruct (table_form show pg_of t H) as (j & Ej & F). rewrite Ej in E. cbn [obind] in E. apply ok_inj in E.
      eapply text_torn; [exact F| |lia|exact E|exact Hq].
      unfold ser_table in Ej. destruct (ser_all _ _); cbn in Ej; [|discriminate|discriminate]. injection Ej as <-. now eexists.
    - destruct (types_form show pg_of ts H) as (j & Ej & F). rewrite Ej in E. cbn [obind] in E. apply ok_inj in E.
      eapply text_torn; [exact F|eapply ser_map_obj, Ej|lia|exact E|exact Hq].
    - apply ok_inj in E. eapply (text_torn _ _ _ _ (Some O)); [apply state_form| |lia|exact E|exact Hq]. now eexists.
  Qed.
End Torn.

(** * Members in another order, and members no field asks for *)

(** The same members of these names. *)
Definition same_members (names : list string) (l l' : list (string * json)) : Prop :=
  Permutation (filter (fun m => existsb (String.eqb (fst m)) names) l)
              (filter (fun m => existsb (String.eqb (fst m)) names) l').

Lemma filter_name names n l : In n names ->
  filter (fun m => String.eqb (fst m) n) (filter (fun m => existsb (String.eqb (fst m)) names) l)
  = filter (fun m : string * json => String.eqb (fst m) n) l.
Proof.
  intros H. rewrite filter_filter. apply filter_ext. intros m.
  destruct (String.eqb_spec (fst m) n) as [->|]; [|now rewrite andb_false_r].
  rewrite andb_true_r. apply existsb_exists. exists n. now rewrite String.eqb_refl.
Qed.
Lemma perm_filter {A} (f : A -> bool) l l' : Permutation l l' -> Permutation (filter f l) (filter f l').
Proof.
  induction 1; cbn; auto.
  - destruct (f x); auto.
  - destruct (f x), (f y); auto. apply perm_swap.
  - etransitivity; eauto.
Qed.
Lemma same_times names n l l' : same_members names l l' -> In n names -> times n l = times n l'.
Proof.
  intros H Hn. unfold times. rewrite <- (filter_name names n l Hn), <- (filter_name names n l' Hn).
  apply Permutation_length. apply perm_filter, H.
Qed.
Lemma find_filter {A} (f : A -> bool) l : find f l = match filter f l with x :: _ => Some x | [] => None end.
Proof. induction l as [|x l IH]; [reflexivity|]. cbn. destruct (f x); [reflexivity|exact IH]. Qed.
Lemma same_find names n l l' : same_members names l l' -> In n names -> (times n l <= 1)%nat -> find_member n l = find_member n l'.
Proof.
  intros H Hn Ht. pose proof (perm_filter (fun m => String.eqb (fst m) n) _ _ H) as P.
  rewrite !(filter_name names n) in P by exact Hn. unfold find_member. rewrite !find_filter. unfold times in Ht.
  destruct (filter (fun m => String.eqb (fst m) n) l) as [|x [|y r]]; [|..|cbn in Ht; lia].
  - now apply Permutation_nil in P as ->.
  - now apply Permutation_length_1_inv in P as ->.
Qed.
Lemma fields_same names l l' : same_members names l l' ->
  (fields names (JObj l) = Err SerdeJson /\ fields names (JObj l') = Err SerdeJson)
  \/ (fields names (JObj l) = Ok (false, l) /\ fields names (JObj l') = Ok (false, l')
      /\ forall n, In n names -> find_member n l = find_member n l').
Proof.
  intros H. cbn [fields].
  assert (existsb (fun n => Nat.ltb 1 (times n l')) names = existsb (fun n => Nat.ltb 1 (times n l)) names) as ->.
  { apply eq_true_iff_eq. rewrite !existsb_exists.
    split; intros (n & Hn & L); exists n; split; auto; [rewrite (same_times names n l l')|rewrite <- (same_times names n l l')]; auto. }
  destruct (existsb (fun n => Nat.ltb 1 (times n l)) names) eqn:E; [now left|]. right. split; [reflexivity|]. split; [reflexivity|].
  intros n Hn. apply (same_find names); auto. destruct (Nat.leb_spec (times n l) 1); [assumption|].
  assert (existsb (fun n => Nat.ltb 1 (times n l)) names = true); [|congruence].
  apply existsb_exists. exists n. split; [exact Hn|]. apply Nat.ltb_lt. lia.
Qed.
Lemma need_same {A} n l l' (f : json -> outcome A) : find_member n l = find_member n l' -> need (false, l) n f = need (false, l') n f.
Proof. unfold need. cbn [snd]. now intros ->. Qed.
Lemma defaulted_same {A} n l l' (f : json -> outcome A) d : find_member n l = find_member n l' ->
  defaulted (false, l) n f d = defaulted (false, l') n f d.
Proof. unfold defaulted. cbn [snd]. now intros ->. Qed.
Lemma optional_same {A} n l l' (f : json -> outcome A) : find_member n l = find_member n l' ->
  optional (false, l) n f = optional (false, l') n f.
Proof. unfold optional. cbn [fst snd]. now intros ->. Qed.

Ltac same_tac H := destruct (fields_same _ _ _ H) as [[E1 E2]|(E1 & E2 & F)]; rewrite E1, E2; [reflexivity|];
  cbn [obind];
  repeat match goal with
  | |- context [need (false, ?l) ?n ?f] => rewrite (need_same n l _ f (F n ltac:(cbn; tauto)))
  end.
Section Members.
  Variable show : f64 -> string.
  Lemma column_same l l' : same_members ["name"; "sqltype"; "nullable"; "pk"; "auto"; "unique"; "default"; "reference"] l l' ->
    de_column show (JObj l) = de_column show (JObj l').
  Proof.
    intros H. unfold de_column. destruct (fields_same _ _ _ H) as [[E1 E2]|(E1 & E2 & F)]; rewrite E1, E2; [reflexivity|].
    cbn [obind]. rewrite !(need_same _ l l') by (apply F; cbn; tauto).
    rewrite !(defaulted_same _ l l') by (apply F; cbn; tauto). rewrite !(optional_same _ l l') by (apply F; cbn; tauto).
    reflexivity.
  Qed.
  Lemma table_same l l' : same_members ["name"; "columns"] l l' -> de_table show (JObj l) = de_table show (JObj l').
  Proof.
    intros H. unfold de_table. destruct (fields_same _ _ _ H) as [[E1 E2]|(E1 & E2 & F)]; rewrite E1, E2; [reflexivity|].
    cbn [obind]. rewrite !(need_same _ l l') by (apply F; cbn; tauto). reflexivity.
  Qed.
  Lemma info_same l l' : same_members ["from_name"; "table_bases"; "backends"] l l' -> de_info (JObj l) = de_info (JObj l').
  Proof.
    intros H. unfold de_info. destruct (fields_same _ _ _ H) as [[E1 E2]|(E1 & E2 & F)]; rewrite E1, E2; [reflexivity|].
    cbn [obind]. rewrite !(need_same _ l l') by (apply F; cbn; tauto).
    rewrite !(defaulted_same _ l l') by (apply F; cbn; tauto). reflexivity.
  Qed.
  Lemma state_same l l' : same_members ["latest"] l l' -> de_state (JObj l) = de_state (JObj l').
  Proof.
    intros H. unfold de_state. destruct (fields_same _ _ _ H) as [[E1 E2]|(E1 & E2 & F)]; rewrite E1, E2; [reflexivity|].
    cbn [obind]. rewrite !(optional_same _ l l') by (apply F; cbn; tauto). reflexivity.
  Qed.

  (** A member that is not there reads as its default. *)
  Lemma times_add n k x l : times n (l ++ [(k, x)]) = (times n l + if String.eqb k n then 1 else 0)%nat.
  Proof.
    unfold times. rewrite filter_app, app_length. cbn. now destruct (String.eqb k n).
  Qed.
  Lemma find_add n k x l : find_member n (l ++ [(k, x)]) =
    match find_member n l with Some j => Some j | None => if String.eqb k n then Some x else None end.
  Proof.
    unfold find_member. induction l as [|[a y] l IH]; cbn.
    - now destruct (String.eqb k n).
    - destruct (String.eqb a n); [reflexivity|exact IH].
  Qed.
  Lemma times_none n l : find_member n l = None -> times n l = O.
  Proof.
    unfold find_member, times. induction l as [|[a y] l IH]; cbn; [reflexivity|].
    destruct (String.eqb a n); [discriminate|exact IH].
  Qed.
  Lemma fields_add names k x l : find_member k l = None ->
    (fields names (JObj l) = Err SerdeJson /\ fields names (JObj (l ++ [(k, x)])) = Err SerdeJson)
    \/ (fields names (JObj l) = Ok (false, l) /\ fields names (JObj (l ++ [(k, x)])) = Ok (false, l ++ [(k, x)])).
  Proof.
    intros N. cbn [fields].
    assert (existsb (fun n => Nat.ltb 1 (times n (l ++ [(k, x)]))) names = existsb (fun n => Nat.ltb 1 (times n l)) names) as ->.
    { apply eq_true_iff_eq. rewrite !existsb_exists.
      split; intros (n & Hn & L); exists n; split; auto; rewrite times_add in *;
        destruct (String.eqb_spec k n) as [<-|]; rewrite ?(times_none k l N) in *; try (cbn in L; discriminate);
        rewrite Nat.add_0_r in *; exact L. }
    destruct (existsb _ names); [now left|now right].
  Qed.
  Lemma need_add {A} n k x l (f : json -> outcome A) : n <> k -> need (false, l ++ [(k, x)]) n f = need (false, l) n f.
  Proof.
    intros H. unfold need. cbn [snd]. rewrite find_add. destruct (String.eqb_spec k n); [congruence|].
    now destruct (find_member n l).
  Qed.
  Lemma defaulted_add {A} n k x l (f : json -> outcome A) d : n <> k -> defaulted (false, l ++ [(k, x)]) n f d = defaulted (false, l) n f d.
  Proof.
    intros H. unfold defaulted. cbn [snd]. rewrite find_add. destruct (String.eqb_spec k n); [congruence|].
    now destruct (find_member n l).
  Qed.
  Lemma optional_add {A} n k x l (f : json -> outcome A) : n <> k -> optional (false, l ++ [(k, x)]) n f = optional (false, l) n f.
  Proof.
    intros H. unfold optional. cbn [fst snd]. rewrite find_add. destruct (String.eqb_spec k n); [congruence|].
    now destruct (find_member n l).
  Qed.
  Lemma defaulted_here {A} k x l (f : json -> outcome A) d : find_member k l = None ->
    f x = Ok d -> defaulted (false, l ++ [(k, x)]) k f d = defaulted (false, l) k f d.
  Proof.
    intros N E. unfold defaulted. cbn [snd]. rewrite find_add, N, String.eqb_refl. exact E.
  Qed.
  Lemma optional_here {A} k l (f : json -> outcome A) : find_member k l = None ->
    optional (false, l ++ [(k, JNull)]) k f = optional (false, l) k f.
  Proof. intros N. unfold optional. cbn [fst snd]. now rewrite find_add, N, String.eqb_refl. Qed.

  Lemma column_default k x l : find_member k l = None ->
    (k, x) = ("unique", JBool false) \/ (k, x) = ("default", JNull) \/ (k, x) = ("reference", JNull) ->
    de_column show (JObj (l ++ [(k, x)])) = de_column show (JObj l).
  Proof.
    intros N C. unfold de_column.
    destruct (fields_add ["name"; "sqltype"; "nullable"; "pk"; "auto"; "unique"; "default"; "reference"] k x l N) as [[E1 E2]|[E1 E2]];
      rewrite E1, E2; [reflexivity|]. cbn [obind].
    destruct C as [[= -> ->]|[[= -> ->]|[= -> ->]]].
    - rewrite !need_add by discriminate. rewrite (defaulted_here "unique") by auto.
      rewrite !(defaulted_add "reference") by discriminate. rewrite !optional_add by discriminate. reflexivity.
    - rewrite !need_add by discriminate. rewrite (optional_here "default") by auto.
      rewrite !defaulted_add by discriminate. reflexivity.
    - rewrite !need_add by discriminate. rewrite (defaulted_here "reference") by auto.
      rewrite !(defaulted_add "unique") by discriminate. rewrite !optional_add by discriminate. reflexivity.
  Qed.
  Lemma info_default k x l : find_member k l = None ->
    (k, x) = ("from_name", JNull) \/ (k, x) = ("table_bases", JObj []) ->
    de_info (JObj (l ++ [(k, x)])) = de_info (JObj l).
  Proof.
    intros N C. unfold de_info.
    destruct (fields_add ["from_name"; "table_bases"; "backends"] k x l N) as [[E1 E2]|[E1 E2]];
      rewrite E1, E2; [reflexivity|]. cbn [obind].
    destruct C as [[= -> ->]|[= -> ->]].
    - rewrite !need_add by discriminate. rewrite (defaulted_here "from_name") by auto.
      rewrite !(defaulted_add "table_bases") by discriminate. reflexivity.
    - rewrite !need_add by discriminate. rewrite (defaulted_here "table_bases") by auto.
      rewrite !(defaulted_add "from_name") by discriminate. reflexivity.
  Qed.
End Members.
