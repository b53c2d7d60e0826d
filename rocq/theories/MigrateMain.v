(** What a migration script leaves when it has run. *)
From Verif Require Import Base SqlVal Sql Query QuerySpec Adb AdbSpec AdbProofs Literal LiteralSpec
  Ddl DdlProofs DdlSpec SqliteDdl SqliteDdlProofs DdlFine Backend BackendSpec SqliteSem MigrateSpec MigrateProofs MigrateInv.

Lemma same_word a b : same_column a b -> word a = word b.
Proof. intros S. unfold word. now rewrite (sc_type _ _ S). Qed.
Lemma same_refers a b f : same_column a b -> refers a f -> refers b f.
Proof.
  intros S (r & E & ->). pose proof (sc_ref _ _ S) as R. rewrite E in R. unfold same_opt in R. destruct (c_ref b) as [[r'|k]|] eqn:Eb; try contradiction.
  cbn in R. subst r'. exists r. split; [exact Eb|]. now rewrite (sc_name _ _ S).
Qed.
Lemma same_declares a b k : same_column a b -> declares a k -> declares b k.
Proof.
  intros S (H1 & H2 & H3 & H4 & H5). pose proof (same_word a b S). destruct S. unfold declares. repeat split; congruence.
Qed.
Lemma same_table_is strict t u b : same_table t u -> table_is strict t b -> table_is strict u b.
Proof.
  intros (_ & S1 & S2) (H1 & H2 & H3 & H4 & H5). split; [exact H1|]. split; [exact H2|]. split; [|split].
  - intros c' Hc'. destruct (S2 c' Hc') as (c & Hc & S). destruct (H3 c Hc) as (k & Hk & D). exists k. split; [exact Hk|]. now apply (same_declares c).
  - intros k Hk. destruct (H4 k Hk) as (c & Hc & D). destruct (S1 c Hc) as (c' & Hc' & S). exists c'. split; [exact Hc'|]. now apply (same_declares c).
  - intros f. rewrite H5. split; intros (c & Hc & R).
    + destruct (S1 c Hc) as (c' & Hc' & S). exists c'. split; [exact Hc'|]. now apply (same_refers c).
    + destruct (S2 c Hc) as (c' & Hc' & S). exists c'. split; [exact Hc'|]. apply (same_refers c); [now apply same_column_sym|exact R].
Qed.
Lemma same_has t u n : same_table t u -> has_column t n -> has_column u n.
Proof. intros (_ & S & _) (c & Hc & <-). destruct (S c Hc) as (c' & Hc' & E). exists c'. split; [exact Hc'|]. symmetry. apply (sc_name _ _ E). Qed.
Lemma same_rows_are conv strict t u b : same_table t u -> rows_are conv strict t b -> rows_are conv strict u b.
Proof.
  intros S R r Hr. destruct (R r Hr) as [[R0 R1] R2]. split; [split; [exact R0|]|].
  - intros n. rewrite R1. split; apply same_has; [exact S|now apply same_table_sym].
  - intros c' v Hc' G. destruct S as (_ & _ & S2). destruct (S2 c' Hc') as (c & Hc & E). rewrite <- (same_word _ _ E), <- (sc_nullable _ _ E).
    apply (R2 c v Hc). now rewrite (sc_name _ _ E).
Qed.

Section Main.
Variable conv : bool -> list string -> lvalue -> option lvalue.
Variable veq : lvalue -> lvalue -> bool.
Variable read : bool -> string -> f64.
Variable show : f64 -> string.
Variable strict : bool.
Hypothesis Hs : storage_ok conv strict read.
Hypothesis Hshow : display_ok read show.
Variables old new : ADB.
Hypothesis Wo : wf_schema old.
Hypothesis Wn : wf_schema new.
Variable db0 : edb.
Hypothesis S0 : msorted db0.
Hypothesis R0 : realises conv strict old db0.
Hypothesis Ex : forall n c, added_column old new n c -> default_exact c.
Hypothesis Un : added_unreferring old new.
Hypothesis Tm : no_temporary new db0.

Lemma get_In (d : ADB) n t : wf_schema d -> (get_table d n = Some t <-> In (n, t) (a_tables d)).
Proof using. intros [S _]. split; [apply mget_In|now apply In_mget]. Qed.
Lemma inv_start : inv conv strict old new db0 old db0.
Proof using Wo S0 R0 Tm.
  constructor.
  - exact Wo.
  - exact S0.
  - intros n tb G. apply (get_In old n tb Wo) in G. now apply R0.
  - intros n t tb c A G Hc. apply (get_In old n tb Wo) in G. rewrite (one_table _ _ _ _ Wo A G). now left.
  - intros n t tb b0 b A G G0 Gb. apply (get_In old n tb Wo) in G. pose proof (one_table _ _ _ _ Wo A G). subst tb.
    assert (b = b0) by congruence. subst b. destruct (R0 n t A) as (b' & Gb' & _ & R). assert (b' = b0) by congruence. subst b'.
    assert (H : forall r, In r (b_rows b0) -> row_rel conv strict t t r r).
    { intros r Hr c Hc. destruct (R r Hr) as [R1 R2]. assert (Y : get r (c_name c) <> None) by (apply R1; now exists c).
      destruct (get r (c_name c)) as [v|] eqn:Gv; [|congruence]. exists v. split; [reflexivity|]. split.
      - intros c0 Hc0 E. exists v. split; [reflexivity|]. now apply (R2 c v).
      - intros N. exfalso. apply N. now exists c. }
    clear - H. induction (b_rows b0) as [|r l IH]; constructor; [apply H; now left|]. apply IH. intros x Hx. apply H. now right.
  - intros n tb b No G. exfalso. apply No. exists tb. now apply get_In in G.
  - intros n (t & Ht) G. apply (get_In old n t Wo) in Ht. congruence.
  - reflexivity.
  - apply Tm.
Qed.

Lemma inv_end cur db : inv conv strict old new db0 cur db -> same_schema cur new -> migrated conv strict old new db0 db.
Proof using Wo Wn R0 Ex.
  intros V Sm. pose proof (v_wf _ _ _ _ _ _ _ V) as Wc.
  assert (Fwd : forall n u, In (n, u) (a_tables new) -> exists tb, get_table cur n = Some tb /\ same_table tb u).
  { intros n u B. destruct (proj2 Sm n u B) as (tb & Htb & S). exists tb. split; [now apply get_In|exact S]. }
  assert (Bwd : forall n tb, get_table cur n = Some tb -> has_table new n).
  { intros n tb G. apply (get_In cur n tb Wc) in G. destruct (proj1 Sm n tb G) as (u & B & _). now exists u. }
  split; [|split; [|split; [|split]]].
  - intros n u B. destruct (Fwd n u B) as (tb & G & S). destruct (v_real _ _ _ _ _ _ _ V n tb G) as (b & Gb & T & R).
    exists b. split; [exact Gb|]. split; [now apply (same_table_is _ tb)|now apply (same_rows_are _ _ tb)].
  - intros n t u A B. destruct (R0 n t A) as (b0 & G0 & _ & Rb0). destruct (Fwd n u B) as (tb & G & S).
    destruct (v_real _ _ _ _ _ _ _ V n tb G) as (b & Gb & T & R). exists b0, b. split; [exact G0|]. split; [exact Gb|].
    pose proof (v_rows _ _ _ _ _ _ _ V n t tb b0 b A G G0 Gb) as F. eapply Forall2_mono; [|exact F].
    intros r r' Hr Hr' Rel c Hc. destruct (proj2 (proj2 S) c Hc) as (c1 & Hc1 & Sc). destruct (Rel c1 Hc1) as (v' & Gv & K1 & K2).
    rewrite (sc_name _ _ Sc) in Gv, K1, K2. exists v'. split; [exact Gv|]. split.
    + intros c0 Hc0 E0. destruct (K1 c0 Hc0 E0) as (v & Gr & Cv). rewrite (same_word _ _ Sc) in Cv. exists v. split; [exact Gr|]. split; [exact Cv|].
      intros Ew. destruct (Rb0 r Hr) as [_ R2]. destruct (R2 c0 v Hc0) as [Y _]; [now rewrite E0|]. rewrite Ew in Y. congruence.
    + intros N. assert (c1 = c); [|subst; auto].
      destruct (v_cols _ _ _ _ _ _ _ V n t tb c1 A G Hc1) as [H|(u' & B' & H)].
      * exfalso. apply N. exists c1. split; [exact H|apply (sc_name _ _ Sc)].
      * rewrite (one_table _ _ _ _ Wn B' B) in H. destruct (proj2 Wn n u B) as [_ [ND _]].
        pose proof (In_col_by_name _ _ ND H) as Y1. pose proof (In_col_by_name _ _ ND Hc) as Y2. rewrite (sc_name _ _ Sc) in Y1. congruence.
  - intros n (u & B) No. destruct (Fwd n u B) as (tb & G & S). destruct (v_real _ _ _ _ _ _ _ V n tb G) as (b & Gb & _).
    exists b. split; [exact Gb|]. apply (v_new _ _ _ _ _ _ _ V n tb b No G Gb).
  - intros n Ho Nn. apply (v_gone _ _ _ _ _ _ _ V n Ho). destruct (get_table cur n) as [tb|] eqn:G; [|reflexivity]. exfalso. apply Nn. now apply (Bwd n tb).
  - intros n No Nn. apply (v_other _ _ _ _ _ _ _ V n No). destruct (get_table cur n) as [tb|] eqn:G; [|reflexivity]. exfalso. apply Nn. now apply (Bwd n tb).
Qed.

Theorem run_migrates ops db : diff_out old new = Ok ops -> ops_fine old ops ->
  run conv veq read db0 (ops_ast show strict old ops) = Some db -> migrated conv strict old new db0 db /\ msorted db.
Proof.
  intros E F H. rewrite diff_eq in E. injection E as <-.
  assert (V : inv conv strict old new db0 (transform_all old (d_all old new)) db).
  { apply (inv_all conv veq read show strict Hs Hshow old new Wo Wn db0 R0 Ex Un Tm (d_all old new) old db0 db inv_start); [|exact F|exact H].
    intros op. apply diff_In; assumption. }
  split; [|apply V]. apply (inv_end _ _ V). apply (diff_reaches old new Wo Wn).
Qed.
End Main.
