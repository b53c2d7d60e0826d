(** The form of each stored type reads back, and its text does. *)
From Verif Require Import Base SqlVal Time Query Json JsonForm JsonSpec JsonProofs Adb Store FsStore ResolveProofs.
From Verif Require ConnSpec ConnStrProofs.
Import ConnSpec(newline).

(** A value of numbers that read back, nested at most [n] deep, that reads as [a]. *)
Definition form {A} (show : f64 -> string) (n : nat) (de : json -> outcome A) (j : json) (a : A) : Prop :=
  ok show j /\ (jdepth j <= n)%nat /\ de j = Ok a.

Ltac okobj := repeat (apply Forall_cons; [cbn [snd]; first [assumption|exact I]|]); apply Forall_nil.
Ltac deobj := repeat (apply Forall_cons; [cbn [snd]; first [lia|cbn; lia]|]); apply Forall_nil.

Section Round.
  Variable show : f64 -> string.
  Variable pg_of : string -> pgtype.
  Notation ok := (ok show).
  Notation form := (form show).

  Lemma form_le {A} n m (de : json -> outcome A) j a : form n de j a -> (n <= m)%nat -> form m de j a.
  Proof. intros (H1 & H2 & H3) H. repeat split; [exact H1|lia|exact H3]. Qed.

  (** ** Lists and maps *)
  Lemma ok_arr_iff l : ok (JArr l) <-> Forall ok l.
  Proof. split; [apply ok_arr|]. cbn. induction 1; cbn; auto. Qed.
  Lemma ok_obj_iff l : ok (JObj l) <-> Forall (fun m => ok (snd m)) l.
  Proof. split; [apply ok_obj|]. cbn. induction 1; cbn; auto. Qed.
  Lemma depth_arr_iff n l : (jdepth (JArr l) <= S n)%nat <-> Forall (fun x => (jdepth x <= n)%nat) l.
  Proof.
    split; [apply depth_arr|]. cbn. intros H. apply le_n_S. induction H; cbn; lia.
  Qed.
  Lemma depth_obj_iff n l : (jdepth (JObj l) <= S n)%nat <-> Forall (fun m => (jdepth (snd m) <= n)%nat) l.
  Proof.
    split; [apply depth_obj|]. cbn. intros H. apply le_n_S. induction H; cbn; lia.
  Qed.

  Lemma list_form {A} n (de : json -> outcome A) (ser : A -> json) l : Forall (fun a => form n de (ser a) a) l ->
    form (S n) (de_list de) (JArr (map ser l)) l.
  Proof.
    intros H. split; [|split].
    - apply ok_arr_iff. rewrite Forall_map. eapply Forall_impl; [|exact H]. intros a (X & _). exact X.
    - apply depth_arr_iff. rewrite Forall_map. eapply Forall_impl; [|exact H]. intros a (_ & X & _). exact X.
    - cbn [de_list]. induction H as [|a l (_ & _ & E) _ IH]; [reflexivity|]. cbn [map de_all]. rewrite E. cbn [obind].
      now rewrite IH.
  Qed.
  Lemma olist_form {A} n (de : json -> outcome A) (ser : A -> outcome json) l :
    Forall (fun a => exists j, ser a = Ok j /\ form n de j a) l ->
    exists js, ser_all ser l = Ok js /\ form (S n) (de_list de) (JArr js) l.
  Proof.
    induction 1 as [|a l (j & E & F) _ (js & Es & Fs)]; [exists []; repeat split; cbn; lia|].
    exists (j :: js). cbn [ser_all]. rewrite E. cbn [obind]. rewrite Es. cbn [obind]. split; [reflexivity|].
    destruct F as (F1 & F2 & F3). destruct Fs as (G1 & G2 & G3). split; [|split].
    - apply ok_arr_iff. apply ok_arr_iff in G1. now constructor.
    - apply depth_arr_iff. apply depth_arr_iff in G2. now constructor.
    - cbn [de_list de_all] in *. rewrite F3. cbn [obind]. now rewrite G3.
  Qed.

  Lemma mput_last {K A} `{OrdKey K} (m : smap K A) k a : Forall (fun x => klt x k) (mkeys m) ->
    mput k a m = m ++ [(k, a)].
  Proof.
    induction m as [|[y w] r IH]; intros Hm; [reflexivity|]. inversion Hm as [|? ? Hy Hr]; subst. cbn [mput app].
    cbn in Hy. assert (kcmp k y = Gt) as -> by now apply kcmp_gt. now rewrite (IH Hr).
  Qed.
  Lemma members_form {K A} `{OrdKey K} (key : K -> string) (dek : string -> outcome K) (de : json -> outcome A) js :
    forall (m m0 : smap K A), Forall2 (fun p q => fst p = key (fst q) /\ dek (key (fst q)) = Ok (fst q) /\ de (snd p) = Ok (snd q)) js m ->
      msorted (m0 ++ m) -> de_members dek de js m0 = Ok (m0 ++ m).
  Proof.
    induction js as [|[t x] js IH]; intros m m0 F S; inversion F as [|? q ? r (E1 & E2 & E3) Fr]; subst.
    - now rewrite app_nil_r.
    - destruct q as [k a]. cbn [fst snd] in *. subst t. cbn [de_members]. rewrite E2. cbn [obind]. rewrite E3. cbn [obind].
      rewrite mput_last.
      + rewrite IH with (m := r); rewrite <- ?app_assoc; auto.
      + unfold msorted, mkeys in *. rewrite map_app in S. cbn [map fst] in S.
        clear -S. induction (map fst m0) as [|y l IHl]; [constructor|]. cbn in S. inversion S as [|? ? S1 S2]; subst.
        constructor; [|now apply IHl]. rewrite Forall_forall in S2. apply S2. apply in_app_iff. right. now left.
  Qed.
  Lemma map_form {K A} `{OrdKey K} n (key : K -> string) dek (de : json -> outcome A) (ser : A -> outcome json) (m : smap K A) :
    msorted m -> Forall (fun p => dek (key (fst p)) = Ok (fst p) /\ exists j, ser (snd p) = Ok j /\ form n de j (snd p)) m ->
    exists j, ser_map key ser m = Ok j /\ form (S n) (de_map dek de) j m.
  Proof.
    intros S F. unfold ser_map.
    assert (exists js, ser_all (ser_member key ser) m = Ok js
      /\ Forall2 (fun p q => fst p = key (fst q) /\ dek (key (fst q)) = Ok (fst q) /\ de (snd p) = Ok (snd q)) js m
      /\ Forall (fun p => ok (snd p)) js /\ Forall (fun p => (jdepth (snd p) <= n)%nat) js) as (js & E & F2 & Fo & Fd).
    { clear S. induction F as [|[k a] m (Hk & j & E & Ho & Hd & Hde) _ (js & Es & G & Go & Gd)];
        [exists []; repeat split; constructor|].
      exists ((key k, j) :: js). cbn [ser_all]. unfold ser_member at 1. cbn [fst snd] in *. rewrite E. cbn [obind].
      rewrite Es. cbn [obind]. repeat split; try constructor; auto. }
    exists (JObj js). rewrite E. cbn [omap]. split; [reflexivity|]. split; [now apply ok_obj_iff|].
    split; [now apply depth_obj_iff|]. cbn [de_map]. now rewrite (members_form key dek de js m []).
  Qed.

  (** ** Strings, bytes *)
  Lemma str_form n s : form n de_string (JStr s) s.
  Proof. repeat split. cbn. lia. Qed.
  Lemma bool_form n b : form n de_bool (JBool b) b.
  Proof. repeat split. cbn. lia. Qed.
  Lemma strs_form l : form 1 (de_list de_string) (JArr (map JStr l)) l.
  Proof. apply list_form. rewrite Forall_forall. intros. apply str_form. Qed.
  Lemma int_form n lo hi z : (lo <= z <= hi)%Z -> int_ok z -> form n (de_int lo hi) (JInt z) z.
  Proof.
    intros H Ho. split; [exact Ho|]. split; [cbn; lia|]. cbn.
    replace (Z.leb lo z) with true by (symmetry; apply Z.leb_le; lia).
    replace (Z.leb z hi) with true by (symmetry; apply Z.leb_le; lia). reflexivity.
  Qed.
  Lemma bytes_form b : form 1 de_bytes (ser_bytes b) b.
  Proof.
    unfold ser_bytes.
    pose proof (list_form 0 (de_int 0 255) JInt (map (fun c => Z.of_N (N_of_ascii c)) (list_ascii_of_string b))) as F.
    destruct F as (F1 & F2 & F3).
    { rewrite Forall_map, Forall_forall. intros c _. pose proof (N_ascii_bounded c). apply int_form; [lia|].
      unfold int_ok. lia. }
    rewrite map_map in F1, F2, F3. split; [exact F1|]. split; [exact F2|]. unfold de_bytes. rewrite F3. cbv beta iota delta [omap obind].
    f_equal. rewrite map_map. rewrite <- (string_of_list_ascii_of_string b) at 2. f_equal.
    rewrite <- (map_id (list_ascii_of_string b)) at 2. apply map_ext. intros c.
    now rewrite N2Z.id, ascii_N_embedding.
  Qed.

  (** ** PostgreSQL types *)
  Fixpoint pg_size (t : pgtype) : nat := match t with PgType _ _ k _ => S (kind_size k) end
  with kind_size (k : pgkind) : nat :=
    match k with
    | PgArray t | PgRange t | PgDomain t => pg_size t
    | PgComposite l => fold_right (fun p n => (pg_size (snd p) + n)%nat) O l
    | _ => O
    end.
  Lemma de_pgtype_S d n o k s : de_pgtype (S d) (JObj [("name", JStr n); ("oid", JInt o); ("kind", k); ("schema", JStr s)]) =
    do o <- de_int 0 4294967295 (JInt o);
    do k <- (do v <- variant k;
                let '(name, c) := v in
                if String.eqb name "Simple" then unit_variant c PgSimple
                else if String.eqb name "Enum" then newtype_variant c (de_list de_string) PgEnum
                else if String.eqb name "Pseudo" then unit_variant c PgPseudo
                else if String.eqb name "Array" then newtype_variant c (de_pgtype d) PgArray
                else if String.eqb name "Range" then newtype_variant c (de_pgtype d) PgRange
                else if String.eqb name "Domain" then newtype_variant c (de_pgtype d) PgDomain
                else if String.eqb name "Composite" then
                  newtype_variant c (de_list (fun j =>
                    do fs <- fields ["name"; "ty"] j;
                    do n <- need fs "name" de_string;
                    do t <- need fs "ty" (de_pgtype d);
                    Ok (n, t))) PgComposite
                else Err SerdeJson);
    Ok (PgType n o k s).
  Proof. reflexivity. Qed.
  Lemma pg_form t d : (pg_nest t <= d)%nat -> pg_oids t -> form (4 * pg_nest t) (de_pgtype d) (ser_pgtype t) t.
  Proof.
    revert t. induction d as [|d IH]; intros [n o k s] Hn Ho; [cbn in Hn; lia|].
    cbn [pg_nest pg_oids] in Hn, Ho. destruct Ho as [Ho Hk].
    assert (Io : int_ok o) by (unfold int_ok; lia).
    assert (K : ok (ser_pgkind k) /\ (jdepth (ser_pgkind k) <= 4 * kind_nest k + 3)%nat
      /\ (do v <- variant (ser_pgkind k);
                let '(name, c) := v in
                if String.eqb name "Simple" then unit_variant c PgSimple
                else if String.eqb name "Enum" then newtype_variant c (de_list de_string) PgEnum
                else if String.eqb name "Pseudo" then unit_variant c PgPseudo
                else if String.eqb name "Array" then newtype_variant c (de_pgtype d) PgArray
                else if String.eqb name "Range" then newtype_variant c (de_pgtype d) PgRange
                else if String.eqb name "Domain" then newtype_variant c (de_pgtype d) PgDomain
                else if String.eqb name "Composite" then
                  newtype_variant c (de_list (fun j =>
                    do fs <- fields ["name"; "ty"] j;
                    do n <- need fs "name" de_string;
                    do t <- need fs "ty" (de_pgtype d);
                    Ok (n, t))) PgComposite
                else Err SerdeJson) = Ok k).
    { assert (T : forall t, (pg_nest t <= kind_nest k)%nat -> pg_oids t ->
        form (4 * kind_nest k) (de_pgtype d) (ser_pgtype t) t).
      { intros t Ht Hp. eapply form_le; [apply IH; [lia|exact Hp]|lia]. }
      destruct k as [|l| |t|t|t|l].
      - repeat split; cbn; lia.
      - destruct (strs_form l) as (F1 & F2 & F3). cbn [ser_pgkind]. unfold tagged. split; [|split].
        + apply ok_obj_iff. okobj.
        + rewrite Nat.add_comm. apply depth_obj_iff. constructor; [cbn [snd]; cbn [kind_nest]; lia|constructor].
        + cbn [variant obind]. change (String.eqb "Enum" "Simple") with false. change (String.eqb "Enum" "Enum") with true.
          cbv iota. cbn [newtype_variant]. now rewrite F3.
      - repeat split; cbn; lia.
      - destruct (T t ltac:(cbn; lia) Hk) as (F1 & F2 & F3). cbn [ser_pgkind]. unfold tagged. split; [|split].
        + apply ok_obj_iff. okobj.
        + rewrite Nat.add_comm. apply depth_obj_iff. constructor; [cbn [snd]; lia|constructor].
        + cbn [variant obind]. cbn [String.eqb Ascii.eqb Bool.eqb]. cbn [newtype_variant]. now rewrite F3.
      - destruct (T t ltac:(cbn; lia) Hk) as (F1 & F2 & F3). cbn [ser_pgkind]. unfold tagged. split; [|split].
        + apply ok_obj_iff. okobj.
        + rewrite Nat.add_comm. apply depth_obj_iff. constructor; [cbn [snd]; lia|constructor].
        + cbn [variant obind]. cbn [String.eqb Ascii.eqb Bool.eqb]. cbn [newtype_variant]. now rewrite F3.
      - destruct (T t ltac:(cbn; lia) Hk) as (F1 & F2 & F3). cbn [ser_pgkind]. unfold tagged. split; [|split].
        + apply ok_obj_iff. okobj.
        + rewrite Nat.add_comm. apply depth_obj_iff. constructor; [cbn [snd]; lia|constructor].
        + cbn [variant obind]. cbn [String.eqb Ascii.eqb Bool.eqb]. cbn [newtype_variant]. now rewrite F3.
      - set (N := kind_nest (PgComposite l)) in *.
        destruct (list_form (S (4 * N)) (fun j => do fs <- fields ["name"; "ty"] j;
                    do n <- need fs "name" de_string;
                    do t <- need fs "ty" (de_pgtype d); Ok (n, t))
            (fun p => JObj [("name", JStr (fst p)); ("ty", ser_pgtype (snd p))]) l) as (F1 & F2 & F3).
        { assert (X : Forall (fun p => (pg_nest (snd p) <= N)%nat /\ pg_oids (snd p)) l).
          { unfold N. cbn [kind_nest kind_oids] in *. clear -Hk. induction l as [|p l IHl]; constructor.
            - cbn in *. split; [lia|tauto].
            - cbn in Hk. destruct Hk as [_ Hk]. specialize (IHl Hk). eapply Forall_impl; [|exact IHl].
              cbn. intros a [? ?]. split; [lia|assumption]. }
          eapply Forall_impl; [|exact X]. intros [m t] (X1 & X2). cbn [fst snd] in *.
          destruct (T t X1 X2) as (F1 & F2 & F3). split; [|split].
          - apply ok_obj_iff. okobj.
          - apply depth_obj_iff. repeat constructor; cbn [snd]; [cbn; lia|lia].
          - change ((do t0 <- de_pgtype d (ser_pgtype t); Ok (m, t0)) = Ok (m, t)). now rewrite F3. }
        cbn [ser_pgkind]. unfold tagged.
        split; [|split].
        + apply ok_obj_iff. okobj.
        + rewrite Nat.add_comm. apply depth_obj_iff. constructor; [cbn [snd]; lia|constructor].
        + cbn [variant obind]. cbn [String.eqb Ascii.eqb Bool.eqb]. cbn [newtype_variant]. now rewrite F3. }
    destruct K as (K1 & K2 & K3). cbn [ser_pgtype]. split; [|split].
    - apply ok_obj_iff. okobj.
    - cbn [pg_nest]. replace (4 * S (kind_nest k))%nat with (S (4 * kind_nest k + 3)) by lia.
      apply depth_obj_iff. deobj.
    - rewrite de_pgtype_S. rewrite (proj2 (proj2 (int_form 0 0 4294967295 o ltac:(lia) Io))). cbn [obind].
      rewrite K3. reflexivity.
  Qed.

  (** ** Types and values *)
  Lemma obj_ok l : Forall (fun m => ok (snd m)) l -> ok (JObj l).
  Proof. apply ok_obj_iff. Qed.
  Lemma tagged_form {A} n k (de : json -> outcome A) j a (de' : json -> outcome A) : form n de' j a ->
    de (tagged k j) = de' j -> form (S n) de (tagged k j) a.
  Proof.
    intros (F1 & F2 & F3) E. split; [|split].
    - apply obj_ok. okobj.
    - apply depth_obj_iff. deobj.
    - now rewrite E, F3.
  Qed.
  Lemma omap_form {A B} n (de : json -> outcome A) (f : A -> B) j a : form n de j a -> form n (fun j => omap f (de j)) j (f a).
  Proof. intros (F1 & F2 & F3). repeat split; auto. now rewrite F3. Qed.

  Lemma custom_form n : storable_pg pg_of n -> form 81 de_custom (ser_custom pg_of n) n.
  Proof.
    intros (E & Ho & Hn). unfold ser_custom. rewrite <- E at 2.
    apply (tagged_form 80 "Pg" de_custom _ _ (fun j => omap pg_name (de_pgtype 128 j))); [|reflexivity].
    apply omap_form. eapply form_le; [apply pg_form; [lia|exact Ho]|lia].
  Qed.
  Lemma sqltype_form t : storable_sqltype pg_of t -> form 82 de_sqltype (ser_sqltype pg_of t) t.
  Proof.
    intros H. destruct t as [| | | | | | | | |n]; [split; [exact I|split; [apply Nat.le_0_l|reflexivity]]..|].
    apply (tagged_form 81 "Custom" de_sqltype _ _ (fun j => omap TCustom (de_custom j))); [|reflexivity].
    apply omap_form, custom_form, H.
  Qed.

  Lemma norm_in_order v : in_order v -> norm v = v.
  Proof.
    induction v as [| | | | |l IH|l IH] using json_ind'; intros H; try reflexivity.
    - cbn [norm]. f_equal. cbn [in_order] in H. induction IH as [|x l Hx _ IHl]; [reflexivity|].
      cbn in H. cbn [map]. now rewrite Hx, IHl by tauto.
    - cbn [norm]. f_equal. cbn [in_order] in H. destruct H as [S H].
      assert (G : forall m0 : smap string json, msorted (m0 ++ l) ->
        (fix go (l : list (string * json)) (m : smap string json) : smap string json :=
                       match l with
                       | [] => m
                       | (k, x) :: r => go r (mput k (norm x) m)
                       end) l m0 = m0 ++ l).
      { clear S. induction IH as [|[k x] l Hx _ IHl]; intros m0 S; [now rewrite app_nil_r|].
        cbn [fold_right snd] in H, Hx. rewrite Hx by tauto. rewrite mput_last.
        - rewrite IHl; rewrite <- ?app_assoc; tauto.
        - unfold msorted, mkeys in *. rewrite map_app in S. cbn [map fst] in S.
          clear -S. induction (map fst m0) as [|y r IHr]; [constructor|]. cbn in S. inversion S as [|? ? S1 S2]; subst.
          constructor; [|now apply IHr]. rewrite Forall_forall in S2. apply S2. apply in_app_iff. right. now left. }
      apply (G []). exact S.
  Qed.

  Lemma sqlval_form v : storable_value show pg_of v ->
    exists j, ser_sqlval pg_of v = Ok j /\ form 101 (de_sqlval show) j v.
  Proof.
    intros H. destruct v as [|b|i|i|r|s|b|j|d|t|n b]; cbn [ser_sqlval].
    - eexists. split; [reflexivity|]. repeat split. cbn. lia.
    - eexists. split; [reflexivity|].
      apply (tagged_form 100 "Bool" (de_sqlval show) _ _ (fun j => omap VBool (de_bool j))); [|reflexivity].
      apply omap_form, bool_form.
    - eexists. split; [reflexivity|].
      apply (tagged_form 100 "Int" (de_sqlval show) _ _ (fun j => omap VInt (de_int (-2147483648) 2147483647 j))); [|reflexivity].
      cbn in H. apply omap_form, int_form; unfold int_ok; lia.
    - eexists. split; [reflexivity|].
      apply (tagged_form 100 "BigInt" (de_sqlval show) _ _ (fun j => omap VBigInt (de_int (-9223372036854775808) 9223372036854775807 j))); [|reflexivity].
      cbn in H. apply omap_form, int_form; unfold int_ok; lia.
    - eexists. split; [reflexivity|].
      apply (tagged_form 100 "Real" (de_sqlval show) _ _ (fun j => omap VReal (de_real j))); [|reflexivity].
      apply omap_form. split; [exact H|]. split; [cbn; lia|reflexivity].
    - eexists. split; [reflexivity|].
      apply (tagged_form 100 "Text" (de_sqlval show) _ _ (fun j => omap VText (de_string j))); [|reflexivity].
      apply omap_form, str_form.
    - eexists. split; [reflexivity|].
      apply (tagged_form 100 "Blob" (de_sqlval show) _ _ (fun j => omap VBlob (de_bytes j))); [|reflexivity].
      apply omap_form. eapply form_le; [apply bytes_form|lia].
    - destruct H as (v & E & Ho & Hi & Hd).
      assert (T : from_text j = Ok v).
      { rewrite E. unfold to_string. rewrite <- (ConnStrProofs.sapp_nil (write show None v)).
        apply text_reads; [exact Ho|lia|now left]. }
      rewrite T. cbn [obind]. eexists. split; [reflexivity|]. rewrite (norm_in_order v Hi).
      apply (tagged_form 100 "Json" (de_sqlval show) _ _ (fun j => omap VJson (Ok (to_string show (norm j))))); [|reflexivity].
      apply (omap_form 100 (fun j => Ok (to_string show (norm j)))). split; [exact Ho|]. split; [lia|].
      now rewrite (norm_in_order v Hi), <- E.
    - eexists. split; [reflexivity|].
      apply (tagged_form 100 "Date" (de_sqlval show) _ _ (fun j => omap VDate (do s <- de_string j;
                                  match parse_date s with Some d => Ok d | None => Err SerdeJson end))); [|reflexivity].
      apply (omap_form 100 (fun j => do s <- de_string j; match parse_date s with Some d => Ok d | None => Err SerdeJson end)).
      repeat split; [cbn; lia|]. cbn [de_string obind]. now rewrite (date_roundtrip d H).
    - eexists. split; [reflexivity|].
      apply (tagged_form 100 "Timestamp" (de_sqlval show) _ _ (fun j => omap VTimestamp (do s <- de_string j;
                                  match parse_timestamp "T" s with Some t => Ok t | None => Err SerdeJson end))); [|reflexivity].
      apply (omap_form 100 (fun j => do s <- de_string j; match parse_timestamp "T" s with Some t => Ok t | None => Err SerdeJson end)).
      repeat split; [cbn; lia|]. cbn [de_string obind]. now rewrite (timestamp_roundtrip "T" t eq_refl H).
    - eexists. split; [reflexivity|].
      set (body := fun j => do fs <- fields ["ty"; "data"] j;
            do t <- need fs "ty" (de_pgtype 128);
            do b <- need fs "data" de_bytes;
            Ok (VCustom (pg_name t) b)).
      apply (form_le 83); [|lia].
      apply (tagged_form 82 "Custom" (de_sqlval show) _ _ (fun j => omap (fun v => v) (
        do v <- variant j;
        let '(name, c) := v in
        if String.eqb name "Pg" then newtype_variant c body (fun v => v) else Err SerdeJson))); [|reflexivity].
      apply (omap_form 82 (fun j => do v <- variant j;
        let '(name, c) := v in
        if String.eqb name "Pg" then newtype_variant c body (fun v => v) else Err SerdeJson) (fun v => v)).
      apply (tagged_form 81 "Pg" _ _ _ (fun j => omap (fun v => v) (body j))); [|reflexivity].
      apply (omap_form 81 body (fun v => v)). destruct H as (E & Ho & Hn).
      destruct (pg_form (pg_of n) 128 ltac:(lia) Ho) as (F1 & F2 & F3).
      destruct (bytes_form b) as (G1 & G2 & G3). split; [|split].
      + apply obj_ok. okobj.
      + apply depth_obj_iff. deobj.
      + unfold body. change ((do t <- de_pgtype 128 (ser_pgtype (pg_of n)); do b <- de_bytes (ser_bytes b);
          Ok (VCustom (pg_name t) b)) = Ok (VCustom n b)).
        rewrite F3. cbn [obind]. rewrite G3. cbn [obind]. now rewrite E.
  Qed.

  (** ** The parts of a table *)
  Lemma typeid_form t : storable_typeid pg_of t -> form 83 de_typeid (ser_typeid pg_of t) t.
  Proof.
    intros H. destruct t as [t|n]; cbn [ser_typeid].
    - apply (tagged_form 82 "Ty" de_typeid _ _ (fun j => omap TyId (de_sqltype j))); [|reflexivity].
      apply omap_form, sqltype_form, H.
    - apply (tagged_form 82 "Name" de_typeid _ _ (fun j => omap TyName (de_string j))); [|reflexivity].
      apply omap_form, str_form.
  Qed.
  Lemma key_back k : storable_key k -> typekey_de (typekey_ser k) = Ok k.
  Proof. intros H. apply typekey_roundtrip. destruct k; exact H. Qed.
  Lemma dtype_form t : storable_dtype pg_of t -> form 84 de_dtype (ser_dtype pg_of t) t.
  Proof.
    intros H. destruct t as [t|t|k]; cbn [ser_dtype].
    - apply (form_le 83); [|lia].
      apply (tagged_form 82 "Known" de_dtype _ _ (fun j => omap Known (de_sqltype j))); [|reflexivity].
      apply omap_form, sqltype_form, H.
    - apply (tagged_form 83 "KnownId" de_dtype _ _ (fun j => omap KnownId (de_typeid j))); [|reflexivity].
      apply omap_form, typeid_form, H.
    - apply (form_le 1); [|lia].
      apply (tagged_form 0 "Deferred" de_dtype _ _ (fun j => omap Deferred (do s <- de_string j; typekey_de s))); [|reflexivity].
      apply (omap_form 0 (fun j => do s <- de_string j; typekey_de s)). repeat split; [cbn; lia|].
      cbn [de_string obind]. apply key_back, H.
  Qed.
  Lemma ref_form r : storable_ref pg_of r -> form 85 de_ref (ser_ref pg_of r) r.
  Proof.
    intros H. destruct r as [[t c]|d]; cbn [ser_ref rl_table rl_column].
    - repeat split. cbn. lia.
    - apply (tagged_form 84 "Deferred" de_ref _ _ (fun j => omap RefDeferred (de_dtype j))); [|reflexivity].
      apply omap_form, dtype_form, H.
  Qed.

  Lemma form_not_null {A} n (de : json -> outcome A) j a : form n de j a -> de JNull <> Ok a -> j <> JNull.
  Proof. intros (_ & _ & E) H ->. now apply H. Qed.
  Lemma option_form {A} n (de : json -> outcome A) (ser : A -> outcome json) o :
    match o with Some a => exists j, ser a = Ok j /\ form n de j a /\ j <> JNull | None => True end ->
    exists j, ser_option ser o = Ok j /\ form n (de_option de) j o.
  Proof.
    destruct o as [a|]; cbn [ser_option].
    - intros (j & E & (F1 & F2 & F3) & N). exists j. repeat split; auto.
      unfold de_option. destruct j; try congruence; now rewrite F3.
    - intros _. exists JNull. repeat split. cbn. lia.
  Qed.

  Lemma column_form c : storable_column show pg_of c ->
    exists j, ser_column pg_of c = Ok j /\ form 102 (de_column show) j c.
  Proof.
    intros (Ht & Hd & Hr). unfold ser_column.
    destruct (option_form 101 (de_sqlval show) (ser_sqlval pg_of) (c_default c)) as (d & E & D1 & D2 & D3).
    { destruct (c_default c) as [v|]; [|exact I]. destruct (sqlval_form v Hd) as (j & E & F). exists j.
      repeat split; try apply F; [exact E|]. apply (form_not_null _ _ _ _ F). discriminate. }
    rewrite E. cbn [obind]. eexists. split; [reflexivity|].
    destruct (dtype_form _ Ht) as (T1 & T2 & T3).
    destruct c as [n t nl pk au un df rf]. cbn [c_name c_type c_nullable c_pk c_auto c_unique c_default c_ref] in *.
    destruct rf as [r|].
    - destruct (ref_form _ Hr) as (R1 & R2 & R3). cbn [app]. split; [|split].
      + apply obj_ok. okobj.
      + apply depth_obj_iff. deobj.
      + change ((do t0 <- de_dtype (ser_dtype pg_of t); do df0 <- de_option (de_sqlval show) d;
          do rf0 <- de_option de_ref (ser_ref pg_of r);
          Ok {| c_name := n; c_type := t0; c_nullable := nl; c_pk := pk; c_auto := au; c_unique := un;
                c_default := df0; c_ref := rf0 |}) = Ok {| c_name := n; c_type := t; c_nullable := nl; c_pk := pk;
                c_auto := au; c_unique := un; c_default := df; c_ref := Some r |}).
        rewrite T3. cbn [obind]. rewrite D3. cbn [obind].
        assert (ser_ref pg_of r <> JNull) by (destruct r; discriminate).
        unfold de_option. destruct (ser_ref pg_of r) eqn:Er; try congruence; now rewrite R3.
    - cbn [app]. split; [|split].
      + apply obj_ok. okobj.
      + apply depth_obj_iff. deobj.
      + change ((do t0 <- de_dtype (ser_dtype pg_of t); do df0 <- de_option (de_sqlval show) d;
          Ok {| c_name := n; c_type := t0; c_nullable := nl; c_pk := pk; c_auto := au; c_unique := un;
                c_default := df0; c_ref := None |}) = Ok {| c_name := n; c_type := t; c_nullable := nl; c_pk := pk;
                c_auto := au; c_unique := un; c_default := df; c_ref := None |}).
        rewrite T3. cbn [obind]. rewrite D3. reflexivity.
  Qed.
  Lemma table_form t : storable_table show pg_of t ->
    exists j, ser_table pg_of t = Ok j /\ form 104 (de_table show) j t.
  Proof.
    intros H. unfold ser_table.
    destruct (olist_form 102 (de_column show) (ser_column pg_of) (t_cols t)) as (cs & E & F1 & F2 & F3).
    { eapply Forall_impl; [|exact H]. intros c. apply column_form. }
    rewrite E. cbn [obind]. eexists. split; [reflexivity|]. destruct t as [n cols]. cbn [t_name t_cols] in *.
    split; [|split].
    - apply obj_ok. okobj.
    - apply depth_obj_iff. deobj.
    - change ((do c <- de_list (de_column show) (JArr cs); Ok {| t_name := n; t_cols := c |}) = Ok {| t_name := n; t_cols := cols |}).
      now rewrite F3.
  Qed.
  Lemma types_form m : storable_types pg_of m ->
    exists j, ser_types pg_of m = Ok j /\ form 85 de_types j m.
  Proof.
    intros [S F]. unfold ser_types, de_types. apply map_form; [exact S|].
    eapply Forall_impl; [|exact F]. intros [k t] [H1 H2]. cbn [fst snd] in *. split; [now apply key_back|].
    eexists. split; [reflexivity|]. now apply dtype_form.
  Qed.
  Lemma adb_form a : storable_adb show pg_of a ->
    exists j, ser_adb pg_of a = Ok j /\ form 106 (de_adb show) j a.
  Proof.
    intros (S & F & T). unfold ser_adb.
    destruct (map_form 104 (fun k : string => k) (fun k => Ok k) (de_table show) (ser_table pg_of) (a_tables a) S)
      as (j1 & E1 & F1 & F2 & F3).
    { eapply Forall_impl; [|exact F]. intros [k t] H. split; [reflexivity|]. now apply table_form. }
    destruct (types_form _ T) as (j2 & E2 & G1 & G2 & G3).
    rewrite E1. cbn [obind]. rewrite E2. cbn [obind]. eexists. split; [reflexivity|].
    destruct a as [ts xs]. cbn [a_tables a_types] in *. split; [|split].
    - apply obj_ok. okobj.
    - apply depth_obj_iff. deobj.
    - change ((do ts0 <- de_map (fun k : string => Ok k) (de_table show) j1; do xs0 <- de_types j2;
        Ok {| a_tables := ts0; a_types := xs0 |}) = Ok {| a_tables := ts; a_types := xs |}).
      rewrite F3. cbn [obind]. now rewrite G3.
  Qed.

  (** ** The migration's own files *)
  Lemma strmap_form (m : smap string string) : msorted m ->
    exists j, ser_texts m = Ok j /\ form 1 de_texts j m.
  Proof.
    intros S. apply map_form; [exact S|]. rewrite Forall_forall. intros [k s] _. split; [reflexivity|].
    exists (JStr s). split; [reflexivity|]. apply str_form.
  Qed.
  Lemma info_form i : storable_info i -> form 2 de_info (ser_info i) i.
  Proof.
    intros S. destruct i as [f m bs]. unfold storable_info in S. cbn [in_from in_bases in_backends] in *.
    destruct (strs_form bs) as (B1 & B2 & B3).
    destruct (strmap_form m S) as (j & E & M1 & M2 & M3).
    assert (X : j = JObj (map (fun p => (fst p, JStr (snd p))) m)).
    { revert E. unfold ser_texts, ser_map, omap.
      assert (ser_all (ser_member (fun k : string => k) ser_str) m = Ok (map (fun p => (fst p, JStr (snd p))) m)) as ->.
      { clear. induction m as [|[k s] m IH]; [reflexivity|]. cbn [ser_all]. rewrite IH. reflexivity. }
      cbn. congruence. }
    subst j. unfold ser_info. cbn [in_from in_bases in_backends].
    destruct f as [f|]; (destruct m as [|p m]; [clear M1 M2 M3|]); cbn [app].
    - split; [|split].
      + apply obj_ok. okobj.
      + apply depth_obj_iff. deobj.
      + change ((do b <- de_list de_string (JArr (map JStr bs)); Ok {| in_from := Some f; in_bases := []; in_backends := b |}) = Ok {| in_from := Some f; in_bases := []; in_backends := bs |}).
        now rewrite B3.
    - split; [|split].
      + apply obj_ok. okobj.
      + apply depth_obj_iff. deobj.
      + change ((do m0 <- de_texts (JObj (map (fun p => (fst p, JStr (snd p))) (p :: m))); do b <- de_list de_string (JArr (map JStr bs)); Ok {| in_from := Some f; in_bases := m0; in_backends := b |}) = Ok {| in_from := Some f; in_bases := p :: m; in_backends := bs |}).
        rewrite M3. cbn [obind]. now rewrite B3.
    - split; [|split].
      + apply obj_ok. okobj.
      + apply depth_obj_iff. deobj.
      + change ((do b <- de_list de_string (JArr (map JStr bs)); Ok {| in_from := None; in_bases := []; in_backends := b |}) = Ok {| in_from := None; in_bases := []; in_backends := bs |}).
        now rewrite B3.
    - split; [|split].
      + apply obj_ok. okobj.
      + apply depth_obj_iff. deobj.
      + change ((do m0 <- de_texts (JObj (map (fun p => (fst p, JStr (snd p))) (p :: m))); do b <- de_list de_string (JArr (map JStr bs)); Ok {| in_from := None; in_bases := m0; in_backends := b |}) = Ok {| in_from := None; in_bases := p :: m; in_backends := bs |}).
        rewrite M3. cbn [obind]. now rewrite B3.
  Qed.
  Lemma state_form l : form 1 de_state (ser_state l) l.
  Proof. destruct l; repeat split; cbn; lia. Qed.
  Lemma clistate_form b : form 1 de_clistate (ser_clistate b) b.
  Proof. repeat split; cbn; lia. Qed.

  Lemma migration_form m : storable_migration show pg_of m ->
    exists j, ser_migration pg_of m = Ok j /\ form 107 (de_migration show) j m.
  Proof.
    intros (A & U & D). destruct m as [n db f u w]. cbn [mm_db mm_up mm_down] in *. unfold ser_migration.
    cbn [mm_name mm_db mm_from mm_up mm_down].
    destruct (adb_form _ A) as (j1 & E1 & F1 & F2 & F3).
    destruct (strmap_form _ U) as (j2 & E2 & G1 & G2 & G3).
    destruct (strmap_form _ D) as (j3 & E3 & H1 & H2 & H3).
    destruct (option_form 0 de_string ser_str f) as (j4 & E4 & I1 & I2 & I3).
    { destruct f as [s|]; [|exact I]. exists (JStr s). repeat split; [cbn; lia|discriminate]. }
    rewrite E1. cbn [obind]. rewrite E4. cbn [obind]. rewrite E2. cbn [obind]. rewrite E3. cbn [obind].
    eexists. split; [reflexivity|]. split; [|split].
    - apply obj_ok. okobj.
    - apply depth_obj_iff. deobj.
    - change ((do d <- de_adb show j1; do f0 <- de_option de_string j4; do u0 <- de_texts j2; do w0 <- de_texts j3;
        Ok {| mm_name := n; mm_db := d; mm_from := f0; mm_up := u0; mm_down := w0 |})
        = Ok {| mm_name := n; mm_db := db; mm_from := f; mm_up := u; mm_down := w |}).
      rewrite F3. cbn [obind]. rewrite I3. cbn [obind]. rewrite G3. cbn [obind]. now rewrite H3.
  Qed.
  Lemma store_form s : storable_store show pg_of s ->
    exists j, ser_store pg_of s = Ok j /\ form 109 (de_store show) j s.
  Proof.
    intros (S & F & C). destruct s as [ms c l]. cbn [ms_migs ms_current] in *. unfold ser_store.
    cbn [ms_migs ms_current ms_latest].
    destruct (map_form 107 (fun k : string => k) (fun k => Ok k) (de_migration show) (ser_migration pg_of) ms S)
      as (j1 & E1 & F1 & F2 & F3).
    { eapply Forall_impl; [|exact F]. intros [k m] H. split; [reflexivity|]. now apply migration_form. }
    destruct (migration_form _ C) as (j2 & E2 & G1 & G2 & G3).
    destruct (option_form 0 de_string ser_str l) as (j4 & E4 & I1 & I2 & I3).
    { destruct l as [t|]; [|exact I]. exists (JStr t). repeat split; [cbn; lia|discriminate]. }
    rewrite E1. cbn [obind]. rewrite E2. cbn [obind]. rewrite E4. cbn [obind].
    eexists. split; [reflexivity|]. split; [|split].
    - apply obj_ok. okobj.
    - apply depth_obj_iff. deobj.
    - change ((do ms0 <- de_map (fun k : string => Ok k) (de_migration show) j1; do c0 <- de_migration show j2;
        do l0 <- de_option de_string j4;
        Ok {| ms_migs := ms0; ms_current := c0; ms_latest := l0 |}) = Ok {| ms_migs := ms; ms_current := c; ms_latest := l |}).
      rewrite F3. cbn [obind]. rewrite G3. cbn [obind]. now rewrite I3.
  Qed.

  (** ** The text *)
  Lemma form_text {A} n (de : json -> outcome A) j a lay t : form n de j a -> (n < 128)%nat -> t = "" \/ t = newline ->
    (do v <- from_text (write show lay j ++ t); de v) = Ok a.
  Proof.
    intros (F1 & F2 & F3) Hn Ht. rewrite (text_reads show lay j t F1 ltac:(lia) Ht). exact F3.
  Qed.
  Theorem file_reads f : storable show pg_of f -> exists s, file_text show pg_of f = Ok s /\ reads_as show s f.
  Proof.
    intros H. destruct f as [i|t|ts|q|l|q]; cbn [file_text file_json reads_as storable] in *.
    - eexists. split; [reflexivity|]. unfold info_of_text, to_string_pretty.
      eapply form_text; [now apply info_form|lia|now right].
    - destruct (table_form t H) as (j & E & F). rewrite E. cbn [obind]. eexists. split; [reflexivity|].
      eapply form_text; [exact F|lia|now right].
    - destruct (types_form ts H) as (j & E & F). rewrite E. cbn [obind]. eexists. split; [reflexivity|].
      eapply form_text; [exact F|lia|now right].
    - eexists. split; reflexivity.
    - eexists. split; [reflexivity|]. eapply form_text; [apply state_form|lia|now right].
    - eexists. split; reflexivity.
  Qed.
  Theorem store_reads s : storable_store show pg_of s ->
    exists t, store_text show pg_of s = Ok t /\ store_of_text show t = Ok s.
  Proof.
    intros H. unfold store_text. destruct (store_form s H) as (j & E & F). rewrite E. cbn [obind].
    eexists. split; [reflexivity|]. unfold store_of_text, to_string_pretty.
    rewrite <- (ConnStrProofs.sapp_nil (write show (Some O) j)).
    eapply form_text; [exact F|lia|now left].
  Qed.
  Theorem clistate_reads b : clistate_of_text (clistate_text show b) = Ok b.
  Proof. unfold clistate_of_text, clistate_text. eapply form_text; [apply clistate_form|lia|now right]. Qed.
End Round.
