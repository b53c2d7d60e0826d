(** Running a SQLite migration script: the schema it leads to and the rows it keeps. *)
From Coq Require Import DecimalString.
From Verif Require Import Base SqlVal Sql Query QuerySpec Adb AdbSpec AdbProofs Literal LiteralSpec LiteralProofs
  Ddl DdlProofs DdlSpec SqliteDdl SqliteDdlProofs DdlFine Backend BackendSpec SqliteSem MigrateSpec.

(** * Rows *)

Lemma get_app r s n : get (r ++ s) n = match get r n with Some v => Some v | None => get s n end.
Proof.
  unfold get. induction r as [|[m v] r IH]; [reflexivity|]. cbn. destruct (String.eqb m n); [reflexivity|exact IH].
Qed.
Lemma get_filter r m n : get (filter (fun p => negb (String.eqb (fst p) m)) r) n = if String.eqb n m then None else get r n.
Proof.
  unfold get. induction r as [|[k v] r IH]; cbn.
  - now destruct (String.eqb n m).
  - destruct (String.eqb_spec k m) as [->|N]; cbn.
    + rewrite IH. destruct (String.eqb_spec n m) as [E|N']; [reflexivity|]. destruct (String.eqb_spec m n); [congruence|reflexivity].
    + destruct (String.eqb_spec k n) as [E|N']; [|exact IH]. destruct (String.eqb_spec n m); [congruence|reflexivity].
Qed.

(** * Declarations *)

Lemma type_word_word c : type_word_of c = word c.
Proof. unfold type_word_of, word. destruct (type_denotes (c_type c)) as [[t|s]|k]; try reflexivity. now destruct t. Qed.
Lemma word_in c : column_fine c -> In (word c) ["INTEGER"; "REAL"; "TEXT"; "BLOB"]%string.
Proof.
  intros (_ & (t & E & N) & _). unfold word. rewrite E. destruct t as [| | | | | | | | |s]; cbn; auto. now destruct (N s).
Qed.
Lemma word_upper c : column_fine c -> upper (word c) = word c.
Proof. intros H. apply word_in in H. cbn in H. repeat (destruct H as [<-|H]; [reflexivity|]). destruct H. Qed.

Definition kcol (c : AColumn) : ecol := ecol_of (coldef_of c).
Lemma kcol_declares c : column_fine c -> declares c (kcol c).
Proof.
  intros F. unfold declares, kcol, ecol_of, coldef_of. cbn. rewrite type_word_word, (word_upper c F).
  destruct (c_nullable c), (c_pk c), (c_unique c); repeat split.
Qed.
Lemma kcol_default_declares c l : column_fine c -> declares c (ecol_of (with_default (coldef_of c) l)).
Proof.
  intros F. unfold declares, with_default, ecol_of, coldef_of. cbn. rewrite type_word_word, (word_upper c F).
  destruct (c_nullable c), (c_pk c), (c_unique c); repeat split.
Qed.
Lemma kcol_name c : k_name (kcol c) = c_name c.
Proof. reflexivity. Qed.
Lemma kcol_default_value c l : k_default (ecol_of (with_default (coldef_of c) l)) = Some l.
Proof. cbn. rewrite fold_left_app. reflexivity. Qed.
Lemma fk_of_In c f : In f (fk_of c) <-> refers c f.
Proof.
  unfold fk_of, refers. destruct (c_ref c) as [[r|k]|]; cbn; split.
  - intros [<-|[]]. eauto.
  - intros (r' & [= ->] & ->). now left.
  - intros [].
  - intros (r' & E & _). discriminate.
  - intros [].
  - intros (r' & E & _). discriminate.
Qed.
Lemma distinct_NoDup l : distinct l = true -> NoDup l.
Proof.
  induction l as [|x l IH]; [constructor|]. cbn. intros [H D]%andb_true_iff. constructor; [|auto].
  intros X. apply negb_true_iff in H. assert (existsb (String.eqb x) l = true); [|congruence].
  apply existsb_exists. exists x. split; [exact X|apply String.eqb_refl].
Qed.
Lemma created_is strict t b : Forall column_fine (t_cols t) -> NoDup (map c_name (t_cols t)) ->
  b = {| b_cols := map ecol_of (map coldef_of (t_cols t)); b_fks := flat_map fk_of (t_cols t); b_strict := strict; b_rows := [] |} ->
  table_is strict t b.
Proof.
  intros F ND ->. split; [reflexivity|]. split; [cbn; rewrite !map_map; exact ND|]. rewrite Forall_forall in F. split; [|split].
  - intros c Hc. exists (kcol c). split; [|auto using kcol_declares]. cbn. rewrite map_map. now apply (in_map kcol).
  - cbn. intros k Hk. rewrite map_map in Hk. apply in_map_iff in Hk as (c & <- & Hc). exists c. split; [exact Hc|]. now apply kcol_declares, F.
  - intros f. cbn. rewrite in_flat_map. split; intros (c & Hc & H); exists c; (split; [exact Hc|]); now apply fk_of_In.
Qed.
Lemma table_is_same strict t u b : t_cols t = t_cols u -> table_is strict t b -> table_is strict u b.
Proof. intros E. unfold table_is. rewrite E. auto. Qed.

Lemma col_at_iff b c k : NoDup (map k_name (b_cols b)) -> (col_at b c = Some k <-> In k (b_cols b) /\ k_name k = c).
Proof.
  unfold col_at. induction (b_cols b) as [|x l IH]; intros ND.
  - cbn. split; [discriminate|intros [[] _]].
  - cbn in ND |- *. apply NoDup_cons_iff in ND as [N ND]. destruct (String.eqb_spec (k_name x) c) as [<-|D].
    + split; [intros [= ->]; auto|]. intros [[->|H] E]; [reflexivity|]. exfalso. apply N. rewrite <- E. now apply in_map.
    + rewrite (IH ND). split; [intros [H E]; auto|]. intros [[->|H] E]; [contradiction|auto].
Qed.
Lemma col_at_None b c : col_at b c = None -> ~ In c (map k_name (b_cols b)).
Proof.
  unfold col_at. intros H X. apply in_map_iff in X as (k & <- & Hk). pose proof (find_none _ _ H k Hk) as Y. cbn in Y. now rewrite String.eqb_refl in Y.
Qed.
Lemma table_names strict t b n : table_is strict t b -> (In n (map k_name (b_cols b)) <-> has_column t n).
Proof.
  intros (_ & _ & H1 & H2 & _). unfold has_column. split.
  - intros X. apply in_map_iff in X as (k & <- & Hk). destruct (H2 k Hk) as (c & Hc & D). exists c. split; [exact Hc|]. symmetry. apply D.
  - intros (c & Hc & <-). destruct (H1 c Hc) as (k & Hk & D). rewrite <- (proj1 D). now apply in_map.
Qed.

(** * Statements *)

Section Run.
Variable conv : bool -> list string -> lvalue -> option lvalue.
Variable veq : lvalue -> lvalue -> bool.
Variable read : bool -> string -> f64.
Variable strict : bool.
Hypothesis Hs : storage_ok conv strict read.

Lemma create_gives db n t db' : Forall column_fine (t_cols t) ->
  create db false n (map coldef_of (t_cols t)) (flat_map fk_of (t_cols t)) strict = Some db' ->
  mget n db = None /\ NoDup (map c_name (t_cols t))
  /\ exists b, db' = mput n b db /\ table_is strict t b /\ b_rows b = [] /\ b_cols b = map kcol (t_cols t) /\ b_strict b = strict
     /\ b_fks b = flat_map fk_of (t_cols t).
Proof using.
  intros F. unfold create. destruct (mget n db) eqn:G; [discriminate|]. cbn [is_some].
  match goal with |- (if ?x then _ else _) = _ -> _ => destruct x eqn:E end; [|discriminate]. intros [= <-].
  apply andb_true_iff in E as [E _]. apply andb_true_iff in E as [E _]. apply andb_true_iff in E as [E _].
  apply distinct_NoDup in E. rewrite !map_map in E. split; [reflexivity|]. split; [exact E|].
  eexists. split; [reflexivity|]. split; [apply created_is; [exact F|exact E|reflexivity]|]. split; [reflexivity|]. split; [cbn; now rewrite map_map|].
  split; reflexivity.
Qed.

(** ADD COLUMN. *)
Lemma get_name (r : row) n : In n (map fst r) -> get r n <> None.
Proof using.
  induction r as [|[m v] r IH]; [intros []|]. unfold get. cbn. destruct (String.eqb_spec m n) as [->|N]; [discriminate|].
  intros [E|H]; [contradiction|]. apply (IH H).
Qed.
Lemma NoDup_filter_names (f : string * lvalue -> bool) (r : row) : NoDup (map fst r) -> NoDup (map fst (filter f r)).
Proof using.
  induction r as [|p r IH]; [intros _; constructor|]. cbn. intros H. apply NoDup_cons_iff in H as [N H]. destruct (f p); cbn; [|auto].
  constructor; [|auto]. intros X. apply N. apply in_map_iff in X as (q & E & Hq). apply filter_In in Hq as [Hq _]. rewrite <- E. now apply in_map.
Qed.
Lemma rows_are_names t b n r : rows_are conv strict t b -> In r (b_rows b) -> (get r n <> None <-> has_column t n).
Proof using. intros R H. apply (R r H). Qed.
Lemma replace_new cols c : ~ In (c_name c) (map c_name cols) -> replace_col cols c = cols ++ [c].
Proof using.
  induction cols as [|d cols IH]; [reflexivity|]. cbn. intros N. destruct (String.eqb_spec (c_name d) (c_name c)) as [E|_]; [tauto|].
  now rewrite IH by tauto.
Qed.
Lemma add_gives db n t c l b db' : mget n db = Some b -> table_is strict t b -> rows_are conv strict t b ->
  column_fine c -> c_ref c = None -> add_col conv read db n (with_default (coldef_of c) l) = Some db' ->
  ~ has_column t (c_name c)
  /\ exists b' x, db' = mput n b' db /\ table_is strict (replace_column t c) b' /\ rows_are conv strict (replace_column t c) b'
    /\ b_fks b' = b_fks b
    /\ lit_value read l = Some x
    /\ (b_rows b = [] \/ exists w, conv strict [word c] x = Some w)
    /\ forall w, conv strict [word c] x = Some w -> Forall2 (fun r r' => r' = r ++ [(c_name c, w)]) (b_rows b) (b_rows b').
Proof.
  intros G T R F NR. unfold add_col. rewrite G. cbv zeta.
  pose proof (kcol_default_declares c l F) as D. pose proof (kcol_default_value c l) as Ed. set (k := ecol_of (with_default (coldef_of c) l)) in *.
  destruct (is_some (col_at b (k_name k)) || k_pk k || k_unique k || negb (type_ok (b_strict b) k)) eqn:E; [discriminate|].
  apply orb_false_iff in E as [E _]. apply orb_false_iff in E as [E _]. apply orb_false_iff in E as [E _].
  destruct (col_at b (k_name k)) eqn:Ec; [discriminate|]. apply col_at_None in Ec. destruct D as (Dn & Dt & Dnn & Dpk & Du).
  rewrite Dn, (table_names strict t b (c_name c) T) in Ec. rewrite Ed.
  destruct (lit_value read l) as [x|] eqn:El; [|discriminate].
  set (tb' := {| b_cols := b_cols b ++ [k]; b_fks := b_fks b; b_strict := b_strict b; b_rows := [] |}).
  assert (Nin : ~ In (c_name c) (map c_name (t_cols t))) by (now rewrite <- has_column_names).
  pose proof T as (Ts & Tn & T1 & T2 & T3).
  assert (T' : forall rs, table_is strict (replace_column t c) (with_rows tb' rs)).
  { intros rs. unfold table_is. cbn. rewrite (replace_new _ _ Nin). split; [exact Ts|]. split.
    - rewrite map_app. apply NoDup_app_iff. split; [exact Tn|]. split; [repeat constructor; auto|].
      intros y Hy [<-|[]]. apply Ec. rewrite <- Dn. now apply (table_names strict t b).
    - split; [|split].
      + intros d Hd. apply in_app_iff in Hd as [Hd|[<-|[]]].
        * destruct (T1 d Hd) as (k' & Hk' & D'). exists k'. split; [apply in_app_iff; now left|exact D'].
        * exists k. split; [apply in_app_iff; right; now left|]. repeat split; assumption.
      + intros k' Hk'. apply in_app_iff in Hk' as [Hk'|[<-|[]]].
        * destruct (T2 k' Hk') as (d & Hd & D'). exists d. split; [apply in_app_iff; now left|exact D'].
        * exists c. split; [apply in_app_iff; right; now left|]. repeat split; assumption.
      + intros f. rewrite T3. split.
        * intros (d & Hd & Rd). exists d. split; [apply in_app_iff; now left|exact Rd].
        * intros (d & Hd & Rd). apply in_app_iff in Hd as [Hd|[<-|[]]]; [eauto|]. destruct Rd as (r & X & _). congruence. }
  intros H. split; [exact Ec|]. destruct (b_rows b) as [|r0 rs0] eqn:Er.
  - injection H as <-. exists tb', x. split; [reflexivity|]. split; [apply (T' [])|]. split; [intros r []|]. split; [reflexivity|]. split; [reflexivity|].
    split; [now left|]. intros w _. constructor.
  - rewrite <- Er in *. rewrite Ts, Dt in H. destruct (conv strict [word c] x) as [w|] eqn:Cw; [|discriminate].
    rewrite Dnn, Dn in H. destruct (negb (c_nullable c) && lnull w) eqn:Enn; [discriminate|].
    assert (H' : db' = mput n (with_rows tb' (map (fun r => r ++ [(c_name c, w)]) (b_rows b))) db)
      by (rewrite Er in *; injection H as <-; reflexivity).
    clear H. subst db'. eexists. exists x. split; [reflexivity|]. split; [apply T'|]. split; [|split; [reflexivity|split; [reflexivity|split]]].
    + intros r' Hr'. cbn in Hr'. apply in_map_iff in Hr' as (r & <- & Hr). destruct (R r Hr) as [[R0 R1] R2]. split; [split|].
      * rewrite map_app. apply NoDup_app_iff. split; [exact R0|]. split; [repeat constructor; auto|]. intros y Hy [<-|[]].
        apply Ec, R1. cbn. now apply get_name.
      * intros m. rewrite get_app. unfold has_column. cbn. rewrite (replace_new _ _ Nin). split.
        -- intros H. destruct (get r m) as [v|] eqn:Gm.
           ++ destruct (proj1 (R1 m)) as (d & Hd & E'); [congruence|]. exists d. split; [apply in_app_iff; now left|exact E'].
           ++ unfold get in H. cbn in H. destruct (String.eqb_spec (c_name c) m) as [E'|]; [|cbn in H; congruence].
              exists c. split; [apply in_app_iff; right; now left|exact E'].
        -- intros (d & Hd & <-). apply in_app_iff in Hd as [Hd|[<-|[]]].
           ++ assert (Y : get r (c_name d) <> None) by (apply R1; exists d; auto). destruct (get r (c_name d)); [discriminate|congruence].
           ++ destruct (get r (c_name c)); [discriminate|]. unfold get. cbn. rewrite String.eqb_refl. discriminate.
      * intros d v Hd. cbn in Hd. rewrite (replace_new _ _ Nin) in Hd. rewrite get_app. apply in_app_iff in Hd as [Hd|[<-|[]]].
        -- assert (Y : get r (c_name d) <> None) by (apply R1; exists d; auto). destruct (get r (c_name d)) as [v0|] eqn:Gd; [|congruence].
           intros [= <-]. apply R2; assumption.
        -- assert (Y : get r (c_name c) = None).
           { destruct (get r (c_name c)) eqn:Gc; [|reflexivity]. exfalso. apply Ec, R1. congruence. }
           rewrite Y. unfold get. cbn. rewrite String.eqb_refl. cbn. intros [= <-]. split; [eapply (so_again _ _ _ Hs), Cw|].
           intros En ->. rewrite En in Enn. discriminate.
    + right. eauto.
    + intros w' X. assert (w' = w) by congruence. subst w'. cbn. clear. induction (b_rows b) as [|r l IH]; constructor; auto.
Qed.

(** DROP COLUMN. *)
Lemma drop_col_gives db n t m b db' : mget n db = Some b -> table_is strict t b -> rows_are conv strict t b ->
  (forall c, In c (t_cols t) -> c_name c = m -> c_ref c = None) -> drop_col db n m = Some db' ->
  exists b', db' = mput n b' db /\ table_is strict (remove_column t m) b' /\ rows_are conv strict (remove_column t m) b'
    /\ b_fks b' = b_fks b
    /\ Forall2 (fun r r' => forall k, k <> m -> get r' k = get r k) (b_rows b) (b_rows b').
Proof using.
  intros G T R NR. unfold drop_col. rewrite G. destruct (col_at b m) as [k|] eqn:Ec; [|discriminate].
  match goal with |- (if ?x then _ else _) = _ -> _ => destruct x end; [discriminate|]. intros [= <-].
  eexists. split; [reflexivity|]. pose proof T as (Ts & Tn & T1 & T2 & T3). split; [|split; [|split]].
  - unfold table_is. cbn. split; [exact Ts|]. split; [|split; [|split]].
    + clear - Tn. induction (b_cols b) as [|x l IH]; [constructor|]. cbn in Tn. apply NoDup_cons_iff in Tn as [N Tn]. cbn.
      destruct (String.eqb (k_name x) m); cbn; [auto|]. constructor; [|auto]. intros X. apply N. apply in_map_iff in X as (y & E & Hy).
      apply filter_In in Hy as [Hy _]. rewrite <- E. now apply in_map.
    + intros c Hc. apply filter_In in Hc as [Hc Nc]. destruct (T1 c Hc) as (x & Hx & D). exists x. split; [|exact D].
      apply filter_In. split; [exact Hx|]. rewrite (proj1 D). exact Nc.
    + intros x Hx. apply filter_In in Hx as [Hx Nx]. destruct (T2 x Hx) as (c & Hc & D). exists c. split; [|exact D].
      apply filter_In. split; [exact Hc|]. rewrite <- (proj1 D). exact Nx.
    + intros f. rewrite T3. split.
      * intros (c & Hc & Rc). exists c. split; [|exact Rc]. apply filter_In. split; [exact Hc|].
        destruct (String.eqb_spec (c_name c) m) as [E|]; [|reflexivity]. destruct Rc as (r & X & _). rewrite (NR c Hc E) in X. discriminate.
      * intros (c & Hc & Rc). apply filter_In in Hc as [Hc _]. eauto.
  - intros r' Hr'. cbn in Hr'. apply in_map_iff in Hr' as (r & <- & Hr). destruct (R r Hr) as [[R0 R1] R2]. split; [split|].
    + now apply NoDup_filter_names.
    + intros x. rewrite get_filter. unfold has_column. cbn. destruct (String.eqb_spec x m) as [->|N].
      * split; [congruence|]. intros (c & Hc & E). apply filter_In in Hc as [_ Hc]. rewrite E, String.eqb_refl in Hc. discriminate.
      * rewrite R1. unfold has_column. split; intros (c & Hc & E).
        -- exists c. split; [|exact E]. apply filter_In. split; [exact Hc|]. rewrite E. now destruct (String.eqb_spec x m).
        -- apply filter_In in Hc as [Hc _]. eauto.
    + intros c v Hc. apply filter_In in Hc as [Hc Nc]. rewrite get_filter. destruct (String.eqb (c_name c) m); [discriminate|]. now apply R2.
  - reflexivity.
  - cbn. clear. induction (b_rows b) as [|r l IH]; constructor; [|exact IH]. intros k N. rewrite get_filter. now destruct (String.eqb_spec k m).
Qed.

(** The rebuild. *)
Definition copied (cols : list AColumn) (r r' : row) : Prop :=
  (map fst r' = map c_name cols /\ forall n, get r' n <> None <-> In n (map c_name cols))
  /\ forall c, In c cols -> exists v v', get r (c_name c) = Some v /\ get r' (c_name c) = Some v'
     /\ conv strict [word c] v = Some v' /\ (c_nullable c = false -> v' <> LNull).
Lemma store_copied cols r : Forall column_fine cols -> NoDup (map c_name cols) -> forall vs r',
  mapm (get r) (map c_name cols) = Some vs -> store conv strict (map kcol cols) vs = Some r' -> copied cols r r'.
Proof using.
  induction cols as [|c cols IH]; intros F ND vs r' M St.
  - cbn in M. injection M as <-. cbn in St. injection St as <-. split; [|intros c []]. split; [reflexivity|]. intros n. cbn. split; [intros H; now elim H|intros []].
  - inversion F as [|? ? Fc F']; subst. cbn in ND. apply NoDup_cons_iff in ND as [N ND]. cbn [map mapm] in M.
    destruct (get r (c_name c)) as [v|] eqn:Gv; [|discriminate]. destruct (mapm (get r) (map c_name cols)) as [vs'|] eqn:M'; [|discriminate].
    injection M as <-. cbn [map store] in St. destruct (kcol_declares c Fc) as (Dn & Dt & Dnn & _). rewrite Dt, Dnn, Dn in St.
    destruct (conv strict [word c] v) as [w|] eqn:Cw; [|discriminate]. destruct (store conv strict (map kcol cols) vs') as [r1|] eqn:S1; [|discriminate].
    destruct (negb (c_nullable c) && lnull w) eqn:Enn; [discriminate|]. injection St as <-.
    destruct (IH F' ND vs' r1 eq_refl S1) as [[C0 C1] C2]. split; [split|].
    + cbn. now rewrite C0.
    + intros n. unfold get. cbn. destruct (String.eqb_spec (c_name c) n) as [E|D]; cbn.
      * split; [auto|discriminate].
      * rewrite <- C1. fold (get r1 n). split; [intros H; right; exact H|intros [X|H]; [contradiction|exact H]].
    + intros d [<-|Hd].
      * exists v, w. split; [exact Gv|]. split; [unfold get; cbn; now rewrite String.eqb_refl|]. split; [exact Cw|].
        intros En ->. rewrite En in Enn. discriminate.
      * destruct (C2 d Hd) as (v1 & v2 & X1 & X2 & X3 & X4). exists v1, v2. split; [exact X1|]. split; [|split; assumption].
        unfold get. cbn. destruct (String.eqb_spec (c_name c) (c_name d)) as [E|_]; [|exact X2]. exfalso. apply N. rewrite E. now apply in_map.
Qed.
Lemma mapm_Forall2 {A B} (f : A -> option B) l l' : mapm f l = Some l' -> Forall2 (fun x y => f x = Some y) l l'.
Proof using.
  revert l'. induction l as [|x l IH]; intros l'; cbn; [intros [= <-]; constructor|].
  destruct (f x) as [y|] eqn:E; [|discriminate]. destruct (mapm f l) as [ys|]; [|discriminate]. intros [= <-]. constructor; auto.
Qed.
Lemma mget_map {A B} (f : A -> B) (m : smap string A) k : mget k (map (fun p => (fst p, f (snd p))) m) = option_map f (mget k m).
Proof using. induction m as [|[x v] m IH]; [reflexivity|]. cbn. destruct (String.eqb_spec k x) as [E|N].
  - subst. now rewrite !keqb_refl.
  - destruct (keqb_spec k x); [contradiction|exact IH].
Qed.
Lemma mkeys_map {A B} (f : A -> B) (m : smap string A) : mkeys (map (fun p => (fst p, f (snd p))) m) = mkeys m.
Proof using. unfold mkeys. rewrite map_map. reflexivity. Qed.
Lemma renamed_none t u fs : (forall f, In f fs -> fk_table f <> t) -> map (renamed_fk t u) fs = fs.
Proof using.
  intros H. induction fs as [|f fs IH]; [reflexivity|]. cbn. rewrite IH by (intros g Hg; apply H; now right). f_equal.
  unfold renamed_fk. destruct (String.eqb_spec (fk_table f) t) as [E|]; [|reflexivity]. exfalso. apply (H f); [now left|exact E].
Qed.
Lemma rebuild_gives db n t t' b db' :
  msorted db -> mget n db = Some b -> table_is strict t b ->
  (forall m b f, mget m db = Some b -> In f (b_fks b) -> fk_table f <> tmp_table_name n) ->
  (forall c f, In c (t_cols t') -> refers c f -> fk_table f <> tmp_table_name n) ->
  t_name t = n -> t_name t' = tmp_table_name n -> Forall column_fine (t_cols t') ->
  run conv veq read db (rebuild_ast strict t t') = Some db' ->
  msorted db' /\ (forall m, m <> n -> mget m db' = mget m db)
  /\ exists b', mget n db' = Some b' /\ table_is strict t' b' /\ rows_are conv strict t' b'
       /\ b_fks b' = flat_map fk_of (t_cols t')
       /\ Forall2 (copied (t_cols t')) (b_rows b) (b_rows b').
Proof.
  intros Sd G T NF NR En En' F. unfold rebuild_ast. rewrite En, En'. cbn [run exec create_ast]. rewrite En'.
  destruct (create db false (tmp_table_name n) (map coldef_of (t_cols t')) (flat_map fk_of (t_cols t')) strict) as [db1|] eqn:E1; [|discriminate].
  destruct (create_gives _ _ _ _ F E1) as (G0 & ND & b1 & -> & T1 & Rw1 & Cs1 & St1 & Fk1).
  assert (Ne : n <> tmp_table_name n) by (intros X; rewrite <- X in G0; congruence).
  unfold copy. rewrite mget_mput_eq, (mget_mput _ _ _ _ Sd). destruct (keqb_spec n (tmp_table_name n)) as [X|_]; [contradiction|]. rewrite G.
  match goal with |- context [if ?x then _ else _] => destruct x eqn:E2 end; [|discriminate].
  rewrite Rw1, St1, Cs1. cbn [List.app].
  match goal with |- context [mapm ?f (b_rows b)] => destruct (mapm f (b_rows b)) as [rs|] eqn:E3 end; [|discriminate].
  set (b2 := with_rows b1 rs). match goal with |- context [if ?x then _ else _] => destruct x eqn:E4 end; [|discriminate].
  rewrite mput_mput. unfold drop. rewrite (mget_mput _ _ _ _ Sd). destruct (keqb_spec n (tmp_table_name n)) as [X|_]; [contradiction|]. rewrite G.
  match goal with |- context [if ?x then _ else _] => destruct x eqn:E5 end; [discriminate|].
  unfold rename_tab. rewrite mget_mdel, (mget_mput _ _ _ _ Sd), keqb_refl. destruct (keqb_spec (tmp_table_name n) n) as [X|_]; [congruence|].
  rewrite mget_mdel, keqb_refl. cbn [is_some]. intros [= <-].
  assert (Sd' : msorted (mput n b2 (mdel (tmp_table_name n) (mdel n (mput (tmp_table_name n) b2 db))))).
  { apply mput_sorted, mdel_sorted, mdel_sorted, mput_sorted, Sd. }
  assert (Rw : forall m, m <> n -> mget m (mput n b2 (mdel (tmp_table_name n) (mdel n (mput (tmp_table_name n) b2 db)))) = mget m db).
  { intros m N. rewrite mget_mput by (apply mdel_sorted, mdel_sorted, mput_sorted, Sd). destruct (keqb_spec m n); [contradiction|].
    rewrite mget_mdel. destruct (keqb_spec m (tmp_table_name n)) as [->|N']; [congruence|]. rewrite mget_mdel. destruct (keqb_spec m n); [contradiction|].
    rewrite (mget_mput _ _ _ _ Sd). destruct (keqb_spec m (tmp_table_name n)); [contradiction|reflexivity]. }
  set (ren := fun x : etab => {| b_cols := b_cols x; b_fks := map (renamed_fk (tmp_table_name n) n) (b_fks x); b_strict := b_strict x; b_rows := b_rows x |}).
  assert (Ren : forall x, (forall f, In f (b_fks x) -> fk_table f <> tmp_table_name n) -> ren x = x).
  { intros x H. unfold ren. rewrite (renamed_none _ _ _ H). now destruct x. }
  change (map (fun p : string * etab => (fst p, {| b_cols := b_cols (snd p); b_fks := map (renamed_fk (tmp_table_name n) n) (b_fks (snd p));
      b_strict := b_strict (snd p); b_rows := b_rows (snd p) |})) (mput n b2 (mdel (tmp_table_name n) (mdel n (mput (tmp_table_name n) b2 db)))))
    with (map (fun p : string * etab => (fst p, ren (snd p))) (mput n b2 (mdel (tmp_table_name n) (mdel n (mput (tmp_table_name n) b2 db))))).
  split; [unfold msorted; rewrite mkeys_map; exact Sd'|]. split.
  - intros m N. rewrite mget_map, (Rw m N). destruct (mget m db) as [x|] eqn:Gm; [|reflexivity]. cbn. f_equal. apply Ren. intros f. apply (NF m x f Gm).
  - exists b2. split; [|split; [|split; [|split]]].
    + rewrite mget_map, mget_mput_eq. cbn. f_equal. apply Ren. intros f Hf. cbn in Hf. rewrite Fk1 in Hf. apply in_flat_map in Hf as (c & Hc & Rc).
      apply fk_of_In in Rc. now apply (NR c f).
    + exact T1.
    + apply mapm_Forall2 in E3. intros r' Hr'. cbn in Hr'.
      assert (exists r, In r (b_rows b) /\ copied (t_cols t') r r') as (r & _ & [C0 C1] & C2).
      { clear - E3 Hr' F ND. induction E3 as [|r x l l' H E3 IH]; [destruct Hr'|]. destruct Hr' as [->|Hr'].
        - exists r. split; [now left|]. destruct (mapm (get r) (map c_name (t_cols t'))) as [vs|] eqn:M; [|discriminate].
          apply (store_copied _ _ F ND vs r' M H).
        - destruct (IH Hr') as (r1 & H1 & C). exists r1. split; [now right|exact C]. }
      split; [split|].
      * rewrite C0. exact ND.
      * intros m. rewrite C1. symmetry. apply has_column_names.
      * intros c v Hc Gv. destruct (C2 c Hc) as (v1 & v2 & X1 & X2 & X3 & X4). assert (v = v2) by congruence. subst v2.
        split; [eapply (so_again _ _ _ Hs), X3|exact X4].
    + exact Fk1.
    + apply mapm_Forall2 in E3. cbn. clear - E3 F ND. induction E3 as [|r x l l' H E3 IH]; constructor; [|exact IH].
      destruct (mapm (get r) (map c_name (t_cols t'))) as [vs|] eqn:M; [|discriminate]. apply (store_copied _ _ F ND vs x M H).
Qed.
End Run.
