(** The generated statements parse to what the builder asked for. *)
From Coq Require Import Permutation DecimalString.
From Verif Require Import Base SqlVal Sql SqlStmt Query QuerySpec Stmt StmtSpec
  LexProofs RenderProofs TokProofs ParseProofs.

(** * Numbering the question marks *)

Fixpoint no_q (ts : list tok) : Prop :=
  match ts with [] => True | TQ :: _ => False | _ :: r => no_q r end.
Lemma number_no_q k ts r : no_q ts -> number_params k (ts ++ r) = ts ++ number_params k r.
Proof.
  induction ts as [|t ts IH]; [reflexivity|]. destruct t; cbn; intros H; try contradiction; now rewrite IH.
Qed.

Section Number.
Variable kw : string -> bool.
Variable pt : nat -> tok.     (* the k-th placeholder as the lexer sees it *)
Variable idx : nat -> Z.      (* the number the next question mark gets, before placeholder k *)
Hypothesis pt_num : forall k r, number_params (idx k) (pt k :: r) = ptok k :: number_params (idx (k + 1)) r.
Notation qm := pt.

(** [ts] becomes [ts'] when the question marks are numbered. *)
Definition numbers (ts : nat -> list tok) (ts' : nat -> list tok) (n : nat) : Prop :=
  forall k r, number_params (idx k) (ts k ++ r) = ts' k ++ number_params (idx (k + n)) r.

Lemma numbers_app a a' b b' n m : numbers a a' n -> numbers b b' m ->
  numbers (fun k => a k ++ b (k + n)) (fun k => a' k ++ b' (k + n)) (n + m).
Proof. intros A B k r. rewrite <- app_assoc, A, B, <- app_assoc, Nat.add_assoc. reflexivity. Qed.
Lemma numbers_fix ts : no_q ts -> numbers (fun _ => ts) (fun _ => ts) 0.
Proof. intros H k r. rewrite Nat.add_0_r. now apply number_no_q. Qed.
Lemma numbers_ext a a' b b' n m : numbers a b n -> (forall k, a k = a' k) -> (forall k, b k = b' k) -> n = m -> numbers a' b' m.
Proof. intros A Ea Eb -> k r. rewrite <- Ea, <- Eb. apply A. Qed.
Lemma numbers_q : numbers (fun k => [qm k]) (fun k => [ptok k]) 1.
Proof. intros k r. apply pt_num. Qed.

Lemma no_q_znum z : no_q (znum z).
Proof. unfold znum. now destruct (Z.to_int z). Qed.
Lemma numbers_val v : numbers (fun k => kval qm k v) (fun k => kval ptok k v) (vph v).
Proof. destruct v; cbn [kval vph bound List.length]; try apply numbers_q; apply numbers_fix, no_q_znum. Qed.
Lemma numbers_vals vs : numbers (fun k => kvals qm k vs) (fun k => kvals ptok k vs) (nvals vs).
Proof.
  induction vs as [|v [|u r] IH].
  - apply (numbers_fix []). exact I.
  - cbn [kvals nvals]. eapply numbers_ext; [apply (numbers_val v)|reflexivity|reflexivity|lia].
  - eapply numbers_ext.
    + apply numbers_app; [apply (numbers_val v)|apply (numbers_app (fun _ => [TComma]) (fun _ => [TComma]) _ _ 0 _ (numbers_fix [TComma] I) IH)].
    + intros k. cbn beta. rewrite Nat.add_0_r. reflexivity.
    + intros k. cbn beta. rewrite Nat.add_0_r. reflexivity.
    + cbn [nvals]. lia.
Qed.
Lemma qtok_no_q w : no_q [qtok kw w].
Proof. unfold qtok. destruct (kw w); exact I. Qed.
Lemma no_q_app a b : no_q a -> no_q b -> no_q (a ++ b).
Proof. induction a as [|[] a IH]; cbn; auto; tauto. Qed.
Lemma no_q_cons t a : no_q [t] -> no_q a -> no_q (t :: a).
Proof. apply (no_q_app [t] a). Qed.
Lemma kcol_no_q c : no_q (kcol kw c).
Proof.
  unfold kcol. destruct (col_table c); [|exact I].
  apply no_q_cons; [apply qtok_no_q|]. apply no_q_cons; [exact I|]. apply qtok_no_q.
Qed.
Lemma kjoin_no_q js : no_q (flat_map (kjoin kw) js).
Proof.
  induction js as [|j js IH]; [exact I|]. cbn [flat_map]. apply no_q_app; [|assumption]. unfold kjoin.
  repeat (apply no_q_cons; [exact I || apply qtok_no_q|]). apply no_q_app; [apply kcol_no_q|].
  apply no_q_cons; [exact I|apply kcol_no_q].
Qed.
Lemma numbers_op x : operand_ok x -> numbers (fun k => kop kw qm k x) (fun k => kop kw ptok k x) (nphop x).
Proof.
  destruct x as [c|v| |]; cbn [operand_ok kop nphop]; intros H; try contradiction.
  - apply numbers_fix, qtok_no_q.
  - apply numbers_val.
Qed.
Lemma numbers_pre l a b n : no_q l -> numbers a b n -> numbers (fun k => l ++ a k) (fun k => l ++ b k) n.
Proof.
  intros H A. eapply numbers_ext; [apply (numbers_app _ _ _ _ 0 n (numbers_fix l H) A)| | |reflexivity];
    intros k; cbn beta; now rewrite Nat.add_0_r.
Qed.
Lemma numbers_post l a b n : no_q l -> numbers a b n -> numbers (fun k => a k ++ l) (fun k => b k ++ l) n.
Proof.
  intros H A. eapply numbers_ext; [apply (numbers_app _ _ _ _ n 0 A (numbers_fix l H))| | |lia]; reflexivity.
Qed.

Lemma numbers_cond d e : supported d e -> numbers (fun k => toks kw qm k e) (fun k => toks kw ptok k e) (nph e).
Proof.
  induction e as [|c x H|c x H|c x H|c x H|c x H|c x H|c x H|l H|a b Ha Hb|a b Ha Hb|a Ha|c t tc a Ha|c vs|c t c2 js a Ha]
    using filter_ind; cbn [supported]; intros S.
  - apply (numbers_fix [TWord "TRUE"]). exact I.
  - destruct S as [_ S]. pose proof (numbers_pre [TWord c; TOp CEq] _ _ _ I (numbers_op x S)) as X.
    destruct x as [|[]| |]; try exact X. apply (numbers_fix [TWord c; TWord "IS"; TWord "NULL"]). exact I.
  - destruct S as [_ S]. pose proof (numbers_pre [TWord c; TOp CNe] _ _ _ I (numbers_op x S)) as X.
    destruct x as [|[]| |]; try exact X. apply (numbers_fix [TWord c; TWord "IS"; TWord "NOT"; TWord "NULL"]). exact I.
  - destruct S as [_ S]. exact (numbers_pre [TWord c; TOp CLt] _ _ _ I (numbers_op x S)).
  - destruct S as [_ S]. exact (numbers_pre [TWord c; TOp CGt] _ _ _ I (numbers_op x S)).
  - destruct S as [_ S]. exact (numbers_pre [TWord c; TOp CLe] _ _ _ I (numbers_op x S)).
  - destruct S as [_ S]. exact (numbers_pre [TWord c; TOp CGe] _ _ _ I (numbers_op x S)).
  - destruct S as [_ S]. exact (numbers_pre [TWord c; TWord "like"] _ _ _ I (numbers_op x S)).
  - apply all_forall in S. cbn [nph]. induction l as [|x l IH]; [apply (numbers_fix []); exact I|].
    inversion H; inversion S; subst.
    eapply numbers_ext; [|intros k; symmetry; apply toks_AllOf|intros k; symmetry; apply toks_AllOf|reflexivity].
    destruct l as [|y l].
    + cbn. eapply numbers_ext; [apply H2; assumption|reflexivity|reflexivity|lia].
    + eapply numbers_ext.
      * apply numbers_app; [apply H2; assumption|apply (numbers_pre [TWord "AND"] _ _ _ I (IH H3 H7))].
      * intros k. reflexivity.
      * intros k. reflexivity.
      * cbn [fold_right]. lia.
  - destruct S as [Sa Sb]. eapply numbers_ext.
    + apply numbers_app; [apply Ha, Sa|apply (numbers_pre [TWord "AND"] _ _ _ I (Hb Sb))].
    + reflexivity.
    + reflexivity.
    + reflexivity.
  - destruct S as [Sa Sb]. eapply numbers_ext.
    + apply numbers_app; [apply Ha, Sa|apply (numbers_pre [TWord "OR"] _ _ _ I (Hb Sb))].
    + reflexivity.
    + reflexivity.
    + reflexivity.
  - exact (numbers_pre [TWord "NOT"] _ _ _ I (Ha S)).
  - destruct S as (_ & _ & _ & S). eapply numbers_ext.
    + apply (numbers_pre [qtok kw c; TWord "IN"; TLP; TWord "SELECT"; qtok kw tc; TWord "FROM"; qtok kw t; TWord "WHERE"]);
        [|apply (numbers_post [TRP]); [exact I|apply Ha, S]].
      repeat (apply no_q_cons; [exact I || apply qtok_no_q|]). exact I.
    + reflexivity.
    + reflexivity.
    + reflexivity.
  - eapply numbers_ext.
    + apply (numbers_pre [qtok kw c; TWord "IN"; TLP]);
        [|apply (numbers_post [TRP]); [exact I|apply (numbers_vals vs)]].
      repeat (apply no_q_cons; [exact I || apply qtok_no_q|]). exact I.
    + reflexivity.
    + reflexivity.
    + reflexivity.
  - destruct S as (_ & _ & _ & _ & _ & S). eapply numbers_ext.
    + apply (numbers_pre ([qtok kw c; TWord "IN"; TLP; TWord "SELECT"] ++ kcol kw c2 ++ [TWord "FROM"; qtok kw t]
               ++ flat_map (kjoin kw) js ++ [TWord "WHERE"]));
        [|apply (numbers_post [TRP]); [exact I|apply Ha, S]].
      repeat first [exact I | apply qtok_no_q | apply kcol_no_q | apply kjoin_no_q | apply no_q_app | apply no_q_cons].
    + intros k. cbn [toks]. repeat (rewrite <- ?app_assoc; cbn [List.app]). reflexivity.
    + intros k. cbn [toks]. repeat (rewrite <- ?app_assoc; cbn [List.app]). reflexivity.
    + reflexivity.
Qed.
End Number.

(** * Statements token by token *)

Fixpoint commas (l : list (list tok)) : list tok :=
  match l with [] => [] | [a] => a | a :: r => a ++ TComma :: commas r end.
Lemma commas_cons a b r : commas (a :: b :: r) = a ++ TComma :: commas (b :: r).
Proof. reflexivity. Qed.

Section Source.
Variable kw : string -> bool.
Variable d : dialect.
Variable P : Type.
Variable next : P -> outcome (string * P).
Variable at_ : P -> nat -> Prop.
Variable limit : nat.
Variable ph : nat -> string.
Variable pt : nat -> tok.
Variable idx : nat -> Z.
Hypothesis next_ok : forall p k, at_ p k -> k < limit -> exists p', next p = Ok (ph k, p') /\ at_ p' (S k).
Hypothesis ph_lex : forall k s, 1 <= k -> k < limit -> delim s ->
  lex_from LStart (ph k ++ s) = pt k :: lex_from LStart s.
Hypothesis pt_num : forall k r, number_params (idx k) (pt k :: r) = ptok k :: number_params (idx (k + 1)) r.

Notation W := (W P).
Notation q := (quote_reserved_word kw).
Notation writes := (writes P at_ limit).
Infix ">>" := (andthen P) (at level 50, left associativity).

(** [f] writes a text that lexes to the tokens [ts] (parameters numbered),
    binds [vs] and uses [n] placeholders.  [c]: the text ends at the end of a token
    whatever follows.  [o]: the text may directly follow a name. *)
Definition says (f : W -> outcome W) (ts : nat -> list tok) (vs : list SqlVal) (n : nat) (c o : bool) : Prop :=
  exists s ts0, writes f s vs n
    /\ (forall k r, 1 <= k -> k + n <= limit -> (c = true \/ delim r) ->
          lex_from LStart (s k ++ r) = ts0 k ++ lex_from LStart r)
    /\ (o = true -> forall k r, (c = true \/ delim r) -> delim (s k ++ r))
    /\ numbers idx ts0 ts n.

Lemma says_seq f g ts us vs ws n m c1 o1 c2 o2 :
  says f ts vs n c1 o1 -> says g us ws m c2 o2 -> orb c1 o2 = true ->
  says (f >> g) (fun k => ts k ++ us (k + n)) (vs ++ ws) (n + m) c2 o1.
Proof.
  intros (s & t & Wf & Lf & Of & Nf) (s' & t' & Wg & Lg & Og & Ng) B.
  exists (fun k => (s k ++ s' (k + n)%nat)%string), (fun k => t k ++ t' (k + n)).
  split; [now apply writes_seq|]. split; [|split].
  - intros k r H1 Hn Hr. rewrite <- str_app_assoc, Lf; [|assumption|lia|].
    + rewrite Lg; [now rewrite app_assoc|lia|lia|assumption].
    + destruct c1; [now left|]. right. now apply (Og B).
  - intros Ho k r Hr. rewrite <- str_app_assoc. apply (Of Ho). destruct c1; [now left|]. right. now apply (Og B).
  - now apply numbers_app.
Qed.
Lemma says_ext f ts ts' vs vs' n n' c o : says f ts vs n c o -> (forall k, ts k = ts' k) -> vs = vs' -> n = n' ->
  says f ts' vs' n' c o.
Proof.
  intros (s & t & Wf & Lf & Of & Nf) E -> ->. exists s, t. repeat split; try assumption.
  intros k r. rewrite <- E. apply Nf.
Qed.
Lemma says_eqf f g ts vs n c o : (forall w, f w = g w) -> says g ts vs n c o -> says f ts vs n c o.
Proof.
  intros E (s & t & Wf & X). exists s, t. split; [|exact X]. intros w k H L. rewrite E. now apply Wf.
Qed.
Lemma says_fixed w tk c o : (forall r, lex_from LStart (w ++ r) = tk ++ lex_from LStart r) -> no_q tk ->
  (o = true -> forall r, delim (w ++ r)) ->
  says (wr P w) (fun _ => tk) [] 0 c o.
Proof.
  intros L N O. exists (fun _ => w), (fun _ => tk). split; [apply writes_wr|]. split; [|split].
  - intros k r _ _ _. apply L.
  - intros Ho k r _. now apply O.
  - now apply numbers_fix.
Qed.
Lemma says_nop : says (fun w => Ok w) (fun _ => []) [] 0 false true.
Proof.
  exists (fun _ => ""%string), (fun _ => []). split; [apply writes_nop|]. split; [|split].
  - reflexivity.
  - intros _ k r [H|H]; [discriminate|assumption].
  - now apply numbers_fix.
Qed.
Lemma says_q w : identifier w = true -> says (wr P (q w)) (fun _ => [qtok kw w]) [] 0 false false.
Proof.
  intros H. exists (fun _ => q w), (fun _ => [qtok kw w]). split; [apply writes_wr|]. split; [|split].
  - intros k r _ _ [|Hr]; [discriminate|]. now apply lex_q.
  - discriminate.
  - apply numbers_fix, qtok_no_q.
Qed.
Lemma says_name w : identifier w = true -> says (wr P w) (fun _ => [TWord w]) [] 0 false false.
Proof.
  intros H. exists (fun _ => w), (fun _ => [TWord w]). split; [apply writes_wr|]. split; [|split].
  - intros k r _ _ [|Hr]; [discriminate|]. now apply lex_ident.
  - discriminate.
  - apply numbers_fix. exact I.
Qed.
Lemma says_place : says (place P next) (fun k => [ptok k]) [] 1 false false.
Proof.
  exists ph, (fun k => [pt k]). split; [now apply writes_place|]. split; [|split].
  - intros k r H1 Hn [|Hr]; [discriminate|]. apply ph_lex; [assumption|lia|assumption].
  - discriminate.
  - intros k r. apply pt_num.
Qed.
Lemma says_dec z : says (wr P (dec z)) (fun _ => znum z) [] 0 false false.
Proof.
  exists (fun _ => dec z), (fun _ => znum z). split; [apply writes_wr|]. split; [|split].
  - intros k r _ _ [|Hr]; [discriminate|]. now apply lex_dec.
  - discriminate.
  - apply numbers_fix, no_q_znum.
Qed.
Lemma says_cond e : no_empty_all e -> supported d e ->
  says (sql_for_cond kw P next e) (fun k => toks kw ptok k e) (bound_values e) (nph e) false false.
Proof.
  intros B S. exists (fun k => text kw ph k e), (fun k => toks kw pt k e).
  split; [now apply writes_cond|]. split; [|split].
  - intros k r H1 Hn [|Hr]; [discriminate|]. eapply (lex_cond kw pt ph 1 limit ph_lex d); eassumption.
  - discriminate.
  - now apply (numbers_cond kw pt idx pt_num d).
Qed.
Lemma says_cols cols : cols <> [] -> Forall (fun c => identifier c = true) cols ->
  says (list_columns kw P cols) (fun _ => commas (map (fun c => [qtok kw c]) cols)) [] 0 false false.
Proof.
  intros NE F. exists (fun _ => join ", " (map q cols)), (fun _ => commas (map (fun c => [qtok kw c]) cols)).
  split; [apply writes_wr|]. split; [|split].
  - intros k r _ _ [|Hr]; [discriminate|]. clear NE. revert r Hr. induction F as [|a l Ha F IH]; [reflexivity|]. intros r Hr.
    destruct l as [|b l]; [now apply lex_q|]. cbn [map]. rewrite commas_cons.
    change (join ", " (q a :: q b :: map q l)) with (q a ++ ", " ++ join ", " (q b :: map q l))%string.
    rewrite <- !str_app_assoc, lex_q; [|assumption|reflexivity].
    change (", " ++ join ", " (q b :: map q l) ++ r)%string with (String "," (String " " (join ", " (q b :: map q l) ++ r))).
    cbn [List.app]. f_equal. change (TComma :: lex_from LStart (join ", " (map q (b :: l)) ++ r)
      = TComma :: commas (map (fun c => [qtok kw c]) (b :: l)) ++ lex_from LStart r). f_equal. now apply IH.
  - discriminate.
  - apply numbers_fix. clear. induction cols as [|a [|b l] IH]; [exact I|apply qtok_no_q|].
    cbn [map]. rewrite commas_cons. apply no_q_app; [apply qtok_no_q|exact IH].
Qed.

Variable p0 : P.
Hypothesis start : at_ p0 1.

Lemma says_run f ts vs n c o : says f ts vs n c o -> 1 + n <= limit ->
  exists s, run P p0 f = Ok (s, vs) /\ number_params (idx 1) (lex s) = ts 1.
Proof.
  intros (s & t & Wf & Lf & _ & Nf) H. exists (s 1). split.
  - unfold run. destruct (Wf {| out := ""; values := []; pls := p0 |} 1 start H) as (p' & E & _).
    rewrite E. reflexivity.
  - unfold lex. rewrite <- (str_app_nil_r (s 1)), Lf; [|lia|assumption|right; exact I].
    cbn [lex_from lflush]. rewrite Nf. cbn. apply app_nil_r.
Qed.
Lemma where_run e : where_text kw P next p0 e = run P p0 (sql_for_cond kw P next e).
Proof. reflexivity. Qed.

(** ** SELECT *)

Definition order_tok (o : Order) : list tok := [qtok kw (ord_column o); TWord (if ord_desc o then "DESC" else "ASC")].
Definition where_toks (e : option BoolExpr) : list tok :=
  match e with Some e => TWord "WHERE" :: toks kw ptok 1 e | None => [] end.
Definition order_toks (os : list Order) : list tok :=
  match os with [] => [] | _ => TWord "ORDER" :: TWord "BY" :: commas (map order_tok os) end.
Definition int_toks (w : string) (n : option Z) : list tok :=
  match n with Some n => TWord w :: znum n | None => [] end.
Definition select_toks (cols : list string) (t : string) (e : option BoolExpr) (os : list Order) (lim off : option Z) : list tok :=
  TWord "SELECT" :: commas (map (fun c => [qtok kw c]) cols) ++ TWord "FROM" :: qtok kw t
  :: where_toks e ++ order_toks os ++ int_toks "LIMIT" lim ++ int_toks "OFFSET" off.


Ltac fixedw w :=
  let tk := eval vm_compute in (lex w) in
  first [ apply (says_fixed w tk true true); [intros; reflexivity|exact I|intros; reflexivity]
        | apply (says_fixed w tk true false); [intros; reflexivity|exact I|discriminate] ].
Ltac said :=
  lazymatch goal with
  | |- says (andthen _ _ _) _ _ _ _ _ => eapply says_seq; [said|said|reflexivity]
  | |- says (wr _ (quote_reserved_word _ _)) _ _ _ _ _ => eapply says_q; eassumption
  | |- says (wr _ (dec _)) _ _ _ _ _ => apply says_dec
  | |- says (place _ _) _ _ _ _ _ => apply says_place
  | |- says (fun w => Ok w) _ _ _ _ _ => apply says_nop
  | |- says (sql_for_cond _ _ _ _) _ _ _ _ _ => eapply says_cond; [eassumption || (eapply bracket_free_no_empty; eassumption)|eassumption]
  | |- says (list_columns _ _ _) _ _ _ _ _ => apply says_cols; eassumption
  | |- says (wr _ ?w) _ _ _ _ _ => fixedw w
  | |- _ => eassumption
  end.

Lemma says_order_terms os : os <> [] -> Forall (fun o => identifier (ord_column o) = true) os ->
  says (order_terms kw P "" os) (fun _ => commas (map order_tok os)) [] 0 false false.
Proof.
  intros NE F.
  assert (Y : forall o, says (wr P (if ord_desc o then "DESC" else "ASC")) (fun _ => [TWord (if ord_desc o then "DESC" else "ASC")]) [] 0 false false)
      by (intros o; apply says_name; now destruct (ord_desc o)).
  assert (R : forall l, Forall (fun o => identifier (ord_column o) = true) l ->
    says (order_terms kw P ", " l) (fun _ => flat_map (fun o => TComma :: order_tok o) l) [] 0 false true).
  { intros l Fl. induction Fl as [|o l Ho Fl IH]; [apply says_nop|]. cbn [order_terms flat_map].
    pose proof (Y o) as Yo.
    eapply says_ext; [eapply says_seq; [eapply says_seq; [said|exact Yo|reflexivity]|exact IH|reflexivity]| |reflexivity|reflexivity].
    intros k. reflexivity. }
  destruct os as [|o l]; [congruence|]. inversion F as [|? ? Ho Fl]; subst. cbn [order_terms].
  pose proof (Y o) as Yo. pose proof (R l Fl) as Rl.
  eapply says_ext; [eapply says_seq; [eapply says_seq; [said|exact Yo|reflexivity]|exact Rl|reflexivity]| |reflexivity|reflexivity].
  intros k. cbn [List.app]. clear. revert o. induction l as [|b l IH]; intros o; [reflexivity|].
  cbn [map flat_map]. rewrite commas_cons. cbn [List.app order_tok]. do 3 f_equal. exact (IH b).
Qed.

Lemma says_opt {A} (f : A -> W -> outcome W) x ts vs n :
  (forall a, x = Some a -> says (f a) ts vs n false true) -> (x = None -> (forall k, ts k = []) /\ vs = [] /\ n = 0) ->
  says (opt P f x) ts vs n false true.
Proof.
  intros H N. destruct x as [a|]; [now apply H|]. destruct (N eq_refl) as (E & -> & ->).
  eapply says_ext; [apply says_nop| |reflexivity|reflexivity]. intros k. now rewrite E.
Qed.

Definition maxed (max_limit : bool) (lim off : option Z) : option Z :=
  match lim, off with None, Some _ => if max_limit then Some i32_max else None | _, _ => lim end.
Definition opt_order (os : list Order) : option (list Order) := match os with [] => None | _ => Some os end.

Definition nph_opt (e : option BoolExpr) : nat := match e with Some e => nph e | None => 0 end.
Definition bound_opt (e : option BoolExpr) : list SqlVal := match e with Some e => bound_values e | None => [] end.
Definition where_ktoks (k : nat) (e : option BoolExpr) : list tok :=
  match e with Some e => TWord "WHERE" :: toks kw ptok k e | None => [] end.
Definition filter_can (e : option BoolExpr) : Prop :=
  match e with Some e => bracket_free Anywhere e /\ supported d e | None => True end.

Lemma says_query ml t cols e lim off os :
  identifier t = true -> cols <> [] -> Forall (fun c => identifier c = true) cols ->
  Forall (fun o => identifier (ord_column o) = true) os -> filter_can e ->
  says (query_text kw P next ml t cols e lim off (opt_order os))
    (fun k => TWord "SELECT" :: commas (map (fun c => [qtok kw c]) cols) ++ TWord "FROM" :: qtok kw t
       :: where_ktoks k e ++ order_toks os ++ int_toks "LIMIT" (maxed ml lim off) ++ int_toks "OFFSET" off)
    (bound_opt e) (nph_opt e) false false.
Proof.
  intros Ht Hc Fc Fo He. unfold query_text.
  assert (A : says (sql_select kw P cols t) (fun _ => TWord "SELECT" :: commas (map (fun c => [qtok kw c]) cols) ++ [TWord "FROM"; qtok kw t]) [] 0 false false).
  { unfold sql_select. eapply says_ext; [said| |reflexivity|reflexivity]. intros k. cbn [List.app]. rewrite <- !app_assoc. reflexivity. }
  assert (B : says (opt P (sql_where kw P next) e) (fun k => where_ktoks k e) (bound_opt e) (nph_opt e) false true).
  { apply says_opt.
    - intros a ->. destruct He as [Hb Hs]. unfold sql_where. eapply says_ext; [said| |reflexivity|reflexivity].
      intros k. cbn. now rewrite Nat.add_0_r.
    - intros ->. repeat split; reflexivity. }
  assert (C : says (opt P (sql_order kw P) (opt_order os)) (fun _ => order_toks os) [] 0 false true).
  { apply says_opt.
    - intros l E. destruct os as [|o os]; [discriminate|]. injection E as <-. unfold sql_order.
      pose proof (says_order_terms (o :: os) ltac:(congruence) Fo) as O.
      eapply says_ext; [said| |reflexivity|reflexivity]. reflexivity.
    - destruct os; [|discriminate]. repeat split; reflexivity. }
  assert (L : forall n, says (sql_limit P n) (fun _ => int_toks "LIMIT" (Some n)) [] 0 false true).
  { intros n. unfold sql_limit. eapply says_ext; [said| |reflexivity|reflexivity]. reflexivity. }
  assert (O : forall n, says (sql_offset P n) (fun _ => int_toks "OFFSET" (Some n)) [] 0 false true).
  { intros n. unfold sql_offset. eapply says_ext; [said| |reflexivity|reflexivity]. reflexivity. }
  assert (Z : says (opt P (sql_limit P) lim >> match off with
     | None => fun w => Ok w
     | Some n => (match lim with
                  | None => if ml then sql_limit P i32_max else (fun w => Ok w)
                  | Some _ => fun w => Ok w
                  end) >> sql_offset P n
     end) (fun _ => int_toks "LIMIT" (maxed ml lim off) ++ int_toks "OFFSET" off) [] 0 false true).
  { destruct lim as [l|], off as [n|]; cbn [opt maxed].
    - pose proof (L l); pose proof (O n). eapply says_ext; [said| |reflexivity|reflexivity]; reflexivity.
    - pose proof (L l). eapply says_ext; [said| |reflexivity|reflexivity]; reflexivity.
    - pose proof (L i32_max); pose proof (O n). destruct ml; (eapply says_ext; [said| |reflexivity|reflexivity]; reflexivity).
    - eapply says_ext; [said| |reflexivity|reflexivity]; reflexivity. }
  pose proof (says_seq _ _ _ _ _ _ _ _ _ _ _ _ (says_seq _ _ _ _ _ _ _ _ _ _ _ _ (says_seq _ _ _ _ _ _ _ _ _ _ _ _ A B eq_refl) C eq_refl) Z eq_refl) as X.
  assert (Y : forall f g h w, (f >> (g >> h)) w = ((f >> g) >> h) w).
  { intros f g h w. unfold andthen. destruct (f w); reflexivity. }
  eapply says_ext; [eapply says_eqf; [intros w; symmetry; apply Y|exact X]| | |].
  - intros k. cbn beta. rewrite !Nat.add_0_r. cbn [List.app]. rewrite <- !app_assoc. reflexivity.
  - cbn [List.app]. now rewrite !app_nil_r.
  - cbn. lia.
Qed.

(** ** Changing statements *)

Lemma says_delete t e : identifier t = true -> filter_can (Some e) ->
  says (delete_text kw P next t e)
    (fun k => TWord "DELETE" :: TWord "FROM" :: qtok kw t :: TWord "WHERE" :: toks kw ptok k e)
    (bound_values e) (nph e) false false.
Proof.
  intros Ht [Hb Hs]. unfold delete_text. eapply says_ext; [said| |reflexivity|reflexivity].
  intros k. cbn [List.app Nat.add]. now rewrite !Nat.add_0_r.
Qed.

Definition ptoks (k n : nat) : list tok := commas (map (fun j => [ptok j]) (seq k n)).
Lemma commas_flat a l : commas (a :: l) = a ++ flat_map (fun x => TComma :: x) l.
Proof.
  revert a. induction l as [|b l IH]; intros a; [symmetry; apply app_nil_r|].
  rewrite commas_cons, IH. reflexivity.
Qed.
Lemma says_placeholders {A} (cols : list A) : cols <> [] ->
  says (placeholders P next "" cols) (fun k => ptoks k (List.length cols)) [] (List.length cols) false false.
Proof.
  intros NE.
  assert (R : forall l : list A, says (placeholders P next ", " l)
    (fun k => flat_map (fun j => [TComma; ptok j]) (seq k (List.length l))) [] (List.length l) false true).
  { induction l as [|c l IH]; [apply says_nop|]. cbn [placeholders List.length].
    eapply says_ext; [said| |reflexivity|reflexivity].
    intros k. cbn [List.app Nat.add seq flat_map]. rewrite Nat.add_0_r, Nat.add_1_r. reflexivity. }
  destruct cols as [|c l]; [congruence|]. cbn [placeholders List.length]. pose proof (R l) as Rl.
  eapply says_ext; [said| |reflexivity|reflexivity].
  intros k. unfold ptoks. cbn [List.app Nat.add seq map]. rewrite commas_flat, Nat.add_0_r, Nat.add_1_r. cbn [List.app].
  f_equal. rewrite flat_map_map. reflexivity.
Qed.

Definition insert_toks (t : string) (cols : list string) (k : nat) : list tok :=
  TWord "INSERT" :: TWord "INTO" :: qtok kw t ::
  match cols with
  | [] => [TWord "DEFAULT"; TWord "VALUES"]
  | _ => TLP :: commas (map (fun c => [qtok kw c]) cols) ++ TRP :: TWord "VALUES" :: TLP
         :: ptoks k (List.length cols) ++ [TRP]
  end.
Lemma says_insert t cols : identifier t = true -> Forall (fun c => identifier c = true) cols ->
  says (sql_insert_with_placeholders kw P next t cols) (insert_toks t cols) [] (List.length cols) true false.
Proof.
  intros Ht Fc. unfold sql_insert_with_placeholders, insert_toks. destruct cols as [|c l].
  - eapply says_ext; [said| |reflexivity|reflexivity]. reflexivity.
  - pose proof (says_placeholders (c :: l) ltac:(congruence)) as Pl.
    assert (NE : c :: l <> []) by congruence.
    eapply says_ext; [said| |reflexivity|].
    + intros k. cbn [List.app Nat.add List.length]. rewrite <- !app_assoc, !Nat.add_0_r. reflexivity.
    + cbn. lia.
Qed.

Definition set_tok (cj : string * nat) : list tok := [qtok kw (fst cj); TOp CEq; ptok (snd cj)].
Lemma says_assignments cols : cols <> [] -> Forall (fun c => identifier c = true) cols ->
  says (assignments kw P next "" cols) (fun k => commas (map set_tok (combine cols (seq k (List.length cols))))) []
    (List.length cols) false false.
Proof.
  intros NE F.
  assert (R : forall l, Forall (fun c => identifier c = true) l -> says (assignments kw P next ", " l)
    (fun k => flat_map (fun cj => TComma :: set_tok cj) (combine l (seq k (List.length l)))) [] (List.length l) false true).
  { intros l Fl. induction Fl as [|c l Hc Fl IH]; [apply says_nop|]. cbn [assignments List.length].
    eapply says_ext; [said| |reflexivity|reflexivity].
    intros k. cbn [List.app Nat.add seq flat_map combine]. rewrite !Nat.add_0_r, Nat.add_1_r. reflexivity. }
  destruct cols as [|c l]; [congruence|]. inversion F as [|? ? Hc Fl]; subst. cbn [assignments List.length]. pose proof (R l Fl) as Rl.
  eapply says_ext; [said| |reflexivity|reflexivity].
  intros k. cbn [List.app Nat.add seq map combine]. rewrite commas_flat, !Nat.add_0_r, Nat.add_1_r. cbn [List.app set_tok fst snd].
  do 3 f_equal. rewrite flat_map_map. reflexivity.
Qed.
Definition update_toks (t pk : string) (cols : list string) (k : nat) : list tok :=
  TWord "UPDATE" :: qtok kw t :: TWord "SET" :: commas (map set_tok (combine cols (seq k (List.length cols))))
  ++ [TWord "WHERE"; qtok kw pk; TOp CEq; ptok (k + List.length cols)].
Lemma says_update t pk cols : identifier t = true -> identifier pk = true -> cols <> [] ->
  Forall (fun c => identifier c = true) cols ->
  says (sql_update_with_placeholders kw P next t pk cols) (update_toks t pk cols) [] (S (List.length cols)) false false.
Proof.
  intros Ht Hp NE Fc. unfold sql_update_with_placeholders, update_toks.
  pose proof (says_assignments cols NE Fc) as A.
  eapply says_ext; [said| |reflexivity|].
  - intros k. cbn [List.app Nat.add]. rewrite <- !app_assoc, !Nat.add_0_r. reflexivity.
  - cbn. lia.
Qed.
Lemma says_pg_insert t cols pk : identifier t = true -> identifier pk = true -> Forall (fun c => identifier c = true) cols ->
  says (pg_insert_text kw P next t cols pk) (fun k => insert_toks t cols k ++ [TWord "RETURNING"; TWord pk]) []
    (List.length cols) false false.
Proof.
  intros Ht Hp Fc. unfold pg_insert_text. pose proof (says_insert t cols Ht Fc) as A. pose proof (says_name pk Hp) as N.
  eapply says_ext; [eapply says_seq; [said|exact N|reflexivity]| |reflexivity|].
  - intros k. cbn beta. rewrite <- app_assoc. reflexivity.
  - lia.
Qed.
End Source.
