(** The generated text of a filter as a function, and how the lexer reads it. *)
From Verif Require Import Base SqlVal Sql Query QuerySpec LexProofs.

(** Induction over filters, through lists and operands. *)
Section Ind.
Variable Q : BoolExpr -> Prop.
Definition Qe (e : Expr) : Prop := match e with ECond c => Q c | _ => True end.
Hypothesis HT : Q BTrue.
Hypothesis HEq : forall c e, Qe e -> Q (BEq c e).
Hypothesis HNe : forall c e, Qe e -> Q (BNe c e).
Hypothesis HLt : forall c e, Qe e -> Q (BLt c e).
Hypothesis HGt : forall c e, Qe e -> Q (BGt c e).
Hypothesis HLe : forall c e, Qe e -> Q (BLe c e).
Hypothesis HGe : forall c e, Qe e -> Q (BGe c e).
Hypothesis HLike : forall c e, Qe e -> Q (BLike c e).
Hypothesis HAll : forall l, Forall Q l -> Q (BAllOf l).
Hypothesis HAnd : forall a b, Q a -> Q b -> Q (BAnd a b).
Hypothesis HOr : forall a b, Q a -> Q b -> Q (BOr a b).
Hypothesis HNot : forall a, Q a -> Q (BNot a).
Hypothesis HSub : forall c t tc a, Q a -> Q (BSubquery c t tc a).
Hypothesis HIn : forall c vs, Q (BIn c vs).
Hypothesis HJoin : forall c t c2 js a, Q a -> Q (BSubqueryJoin c t c2 js a).
Fixpoint filter_ind (e : BoolExpr) : Q e :=
  let ope (x : Expr) : Qe x := match x with ECond c => filter_ind c | _ => I end in
  match e with
  | BTrue => HT
  | BEq c x => HEq c x (ope x)
  | BNe c x => HNe c x (ope x)
  | BLt c x => HLt c x (ope x)
  | BGt c x => HGt c x (ope x)
  | BLe c x => HLe c x (ope x)
  | BGe c x => HGe c x (ope x)
  | BLike c x => HLike c x (ope x)
  | BAllOf l => HAll l ((fix go l : Forall Q l :=
      match l with [] => Forall_nil _ | x :: r => Forall_cons x (filter_ind x) (go r) end) l)
  | BAnd a b => HAnd a b (filter_ind a) (filter_ind b)
  | BOr a b => HOr a b (filter_ind a) (filter_ind b)
  | BNot a => HNot a (filter_ind a)
  | BSubquery c t tc a => HSub c t tc a (filter_ind a)
  | BIn c vs => HIn c vs
  | BSubqueryJoin c t c2 js a => HJoin c t c2 js a (filter_ind a)
  end.
End Ind.

(** * Text *)

Section Text.
Variable kw : string -> bool.
Variable ph : nat -> string.   (* text of the k-th placeholder, from 1 *)
Notation q := (quote_reserved_word kw).

(** Placeholders in a value. *)
Definition vph (v : SqlVal) : nat := List.length (bound v).
Definition tval (k : nat) (v : SqlVal) : string :=
  match v with VInt i | VBigInt i => dec i | _ => ph k end.
Definition tcol (c : Column) : string :=
  match col_table c with Some t => (q t ++ "." ++ q (col_name c))%string | None => col_name c end.
Fixpoint tjoins (js : list Join) : string :=
  match js with
  | [] => ""
  | j :: r => ("INNER JOIN " ++ q (join_table j) ++ " ON " ++ tcol (join_col1 j)
               ++ " = " ++ tcol (join_col2 j) ++ tjoins r)%string
  end.
Fixpoint tvals (k : nat) (vs : list SqlVal) : string :=
  match vs with
  | [] => ""
  | [v] => tval k v
  | v :: r => (tval k v ++ ", " ++ tvals (k + vph v) r)%string
  end.
Fixpoint nvals (vs : list SqlVal) : nat := match vs with [] => 0 | v :: r => vph v + nvals r end.

Fixpoint nph (e : BoolExpr) : nat :=
  match e with
  | BEq _ (EVal VNull) | BNe _ (EVal VNull) => 0
  | BEq _ e | BNe _ e | BLt _ e | BGt _ e | BLe _ e | BGe _ e | BLike _ e =>
      match e with
      | EVal v => vph v
      | ECond c => nph c
      | EColumn _ => 0
      | EPlaceholder => 1
      end
  | BTrue => 0
  | BAllOf l => fold_right (fun x acc => nph x + acc) 0 l
  | BAnd a b | BOr a b => nph a + nph b
  | BNot a => nph a
  | BIn _ vs => nvals vs
  | BSubquery _ _ _ a => nph a
  | BSubqueryJoin _ _ _ _ a => nph a
  end.

Fixpoint text (k : nat) (e : BoolExpr) : string :=
  let ope (x : Expr) :=
    match x with EColumn c => q c | EVal v => tval k v | EPlaceholder => ph k | ECond c => text k c end in
  match e with
  | BTrue => "TRUE"
  | BEq c (EVal VNull) => (c ++ " IS NULL")%string
  | BNe c (EVal VNull) => (c ++ " IS NOT NULL")%string
  | BEq c x => (c ++ " = " ++ ope x)%string
  | BNe c x => (c ++ " <> " ++ ope x)%string
  | BLt c x => (c ++ " < " ++ ope x)%string
  | BGt c x => (c ++ " > " ++ ope x)%string
  | BLe c x => (c ++ " <= " ++ ope x)%string
  | BGe c x => (c ++ " >= " ++ ope x)%string
  | BLike c x => (c ++ " like " ++ ope x)%string
  | BAllOf l =>
      (fix all (k : nat) (l : list BoolExpr) : string :=
         match l with
         | [] => ""
         | x :: l' => match l' with
                      | [] => text k x
                      | _ => text k x ++ " AND " ++ all (k + nph x) l'
                      end
         end) k l
  | BAnd a b => text k a ++ " AND " ++ text (k + nph a) b
  | BOr a b => text k a ++ " OR " ++ text (k + nph a) b
  | BNot a => "NOT " ++ text k a
  | BSubquery c t tc a =>
      q c ++ " IN (SELECT " ++ q tc ++ " FROM " ++ q t ++ " WHERE " ++ text k a ++ ")"
  | BSubqueryJoin c t c2 js a =>
      q c ++ " IN (SELECT " ++ tcol c2 ++ " FROM " ++ q t ++ " " ++ tjoins js ++ " WHERE "
      ++ text k a ++ ")"
  | BIn c vs => q c ++ " IN (" ++ tvals k vs ++ ")"
  end%string.

Definition textop (k : nat) (x : Expr) : string :=
  match x with EColumn c => q c | EVal v => tval k v | EPlaceholder => ph k | ECond c => text k c end.
Definition nphop (x : Expr) : nat :=
  match x with EVal v => vph v | ECond c => nph c | EColumn _ => 0 | EPlaceholder => 1 end.
Definition boundop (x : Expr) : list SqlVal :=
  match x with EVal v => bound v | ECond c => bound_values c | EColumn _ | EPlaceholder => [] end.
Fixpoint text_all (k : nat) (l : list BoolExpr) : string :=
  match l with
  | [] => ""
  | x :: l' => match l' with
               | [] => text k x
               | _ => text k x ++ " AND " ++ text_all (k + nph x) l'
               end
  end%string.
Lemma text_AllOf k l : text k (BAllOf l) = text_all k l.
Proof. reflexivity. Qed.
Definition nph_all (l : list BoolExpr) : nat := fold_right (fun x acc => nph x + acc) 0 l.

(** * The writer produces the text *)

Section Writer.
Variable P : Type.
Variable next : P -> outcome (string * P).
Variable at_ : P -> nat -> Prop.   (* the source is about to give placeholder k *)
Variable limit : nat.
Hypothesis next_ok : forall p k, at_ p k -> k < limit ->
  exists p', next p = Ok (ph k, p') /\ at_ p' (S k).

Notation W := (W P).
(** [f] writes [s], binds [vs] and uses [n] placeholders. *)
Definition writes (f : W -> outcome W) (s : nat -> string) (vs : list SqlVal) (n : nat) : Prop :=
  forall w k, at_ (pls P w) k -> k + n <= limit ->
    exists p', f w = Ok {| out := (out P w ++ s k)%string; values := values P w ++ vs; pls := p' |}
               /\ at_ p' (k + n).

Lemma writes_wr s : writes (wr P s) (fun _ => s) [] 0.
Proof.
  intros w k H _. exists (pls P w). rewrite app_nil_r, Nat.add_0_r. split; [reflexivity|assumption].
Qed.
Lemma writes_nop : writes (fun w => Ok w) (fun _ => ""%string) [] 0.
Proof.
  intros w k H _. exists (pls P w). rewrite app_nil_r, Nat.add_0_r, str_app_nil_r.
  split; [now destruct w|assumption].
Qed.
Lemma writes_place : writes (place P next) ph [] 1.
Proof.
  intros w k H L. destruct (next_ok _ k H) as (p' & E1 & A); [lia|].
  exists p'. unfold place. rewrite E1. cbn [obind fst snd]. rewrite app_nil_r, Nat.add_1_r. auto.
Qed.
Lemma writes_seq f g s t vs us n m :
  writes f s vs n -> writes g t us m ->
  writes (andthen P f g) (fun k => (s k ++ t (k + n)%nat)%string) (vs ++ us) (n + m).
Proof.
  intros F G w k H L. destruct (F w k H) as (p & E1 & A); [lia|].
  unfold andthen. rewrite E1. cbn [obind].
  destruct (G {| out := (out P w ++ s k)%string; values := values P w ++ vs; pls := p |} (k + n) A)
    as (p' & E2 & A'); [lia|]. cbn [out values pls] in E2.
  exists p'. rewrite E2. cbn [out values pls]. rewrite <- str_app_assoc, app_assoc, Nat.add_assoc. auto.
Qed.
Lemma writes_ext f s s' vs n : (forall k, s k = s' k) -> writes f s vs n -> writes f s' vs n.
Proof. intros E H w k A L. destruct (H w k A L) as (p & Ep & A'). rewrite E in Ep. eauto. Qed.

Lemma writes_val v : writes (sql_val P next v) (fun k => tval k v) (bound v) (vph v).
Proof.
  assert (X : forall u, writes (andthen P (push P u) (place P next)) ph [u] 1).
  { intros u w k H L. destruct (next_ok _ k H) as (p' & E1 & A); [lia|].
    exists p'. unfold andthen, push, place. cbn [obind out values pls]. rewrite E1. cbn [obind fst snd].
    rewrite Nat.add_1_r. auto. }
  destruct v; try apply X; apply writes_wr.
Qed.


Lemma writes_cast f s vs n vs' n' : writes f s vs n -> vs = vs' -> n = n' -> writes f s vs' n'.
Proof. now intros H -> ->. Qed.

Lemma writes_vals vs : writes (sql_vals P next vs) (fun k => tvals k vs) (flat_map bound vs) (nvals vs).
Proof.
  induction vs as [|v [|u r] IH].
  - apply writes_nop.
  - cbn [flat_map nvals tvals]. eapply writes_cast; [apply writes_val|now rewrite app_nil_r|now rewrite Nat.add_0_r].
  - cbn [sql_vals]. eapply writes_cast.
    + eapply writes_ext; [|apply writes_seq; [apply writes_seq; [apply writes_val|apply writes_wr]|exact IH]].
      intros k. cbn beta. rewrite Nat.add_0_r, <- str_app_assoc. reflexivity.
    + cbn [flat_map]. now rewrite app_nil_r.
    + cbn [nvals]. lia.
Qed.

Lemma writes_column c : writes (sql_column kw P c) (fun _ => tcol c) [] 0.
Proof.
  unfold sql_column, tcol. destruct (col_table c); [|apply writes_wr].
  eapply writes_ext; [|exact (writes_seq _ _ _ _ [] [] 0 0 (writes_seq _ _ _ _ [] [] 0 0 (writes_wr _) (writes_wr _)) (writes_wr _))].
  intros k. cbn beta. now rewrite <- str_app_assoc.
Qed.

Lemma writes_joins js : writes (sql_joins kw P js) (fun _ => tjoins js) [] 0.
Proof.
  induction js as [|j js IH]; [apply writes_nop|]. cbn [sql_joins].
  eapply writes_cast.
  - eapply writes_ext; [|repeat first [eapply writes_seq|apply writes_wr|apply writes_column|exact IH]].
    intros k. cbn beta. now rewrite <- !str_app_assoc.
  - reflexivity.
  - reflexivity.
Qed.

Lemma writes_operand x :
  Qe (fun e => writes (sql_for_cond kw P next e) (fun k => text k e) (bound_values e) (nph e)) x ->
  writes (sql_for_expr kw P next x) (fun k => textop k x) (boundop x) (nphop x).
Proof.
  intros H. destruct x as [c|v| |c]; cbn [sql_for_expr textop boundop nphop].
  - apply writes_wr.
  - apply writes_val.
  - apply writes_place.
  - exact H.
Qed.

Lemma writes_cmp c o x :
  Qe (fun e => writes (sql_for_cond kw P next e) (fun k => text k e) (bound_values e) (nph e)) x ->
  writes (andthen P (andthen P (wr P c) (wr P o)) (sql_for_expr kw P next x))
         (fun k => (c ++ o ++ textop k x)%string) (boundop x) (nphop x).
Proof.
  intros H. eapply writes_cast.
  - eapply writes_ext; [|apply writes_seq; [apply writes_seq; apply writes_wr|exact (writes_operand x H)]].
    intros k. cbn beta. now rewrite !Nat.add_0_r, <- str_app_assoc.
  - reflexivity.
  - reflexivity.
Qed.

Fixpoint sql_all (l : list BoolExpr) : W -> outcome W :=
  match l with
  | [] => fun w => Ok w
  | c :: l' => match l' with
               | [] => sql_for_cond kw P next c
               | _ => andthen P (andthen P (sql_for_cond kw P next c) (wr P " AND ")) (sql_all l')
               end
  end.
Lemma sql_AllOf l : sql_for_cond kw P next (BAllOf l) = sql_all l.
Proof. reflexivity. Qed.

Lemma writes_cond e : writes (sql_for_cond kw P next e) (fun k => text k e) (bound_values e) (nph e).
Proof.
  induction e as [|c x H|c x H|c x H|c x H|c x H|c x H|c x H|l H|a b Ha Hb|a b Ha Hb|a Ha|c t tc a Ha|c vs|c t c2 js a Ha]
    using filter_ind.
  - apply writes_wr.
  - pose proof (writes_cmp c " = " x H) as X.
    destruct x as [|[]| |]; try exact X.
    eapply writes_cast; [eapply writes_ext; [|apply writes_seq; apply writes_wr]; intros; reflexivity|reflexivity|reflexivity].
  - pose proof (writes_cmp c " <> " x H) as X.
    destruct x as [|[]| |]; try exact X.
    eapply writes_cast; [eapply writes_ext; [|apply writes_seq; apply writes_wr]; intros; reflexivity|reflexivity|reflexivity].
  - exact (writes_cmp c " < " x H).
  - exact (writes_cmp c " > " x H).
  - exact (writes_cmp c " <= " x H).
  - exact (writes_cmp c " >= " x H).
  - exact (writes_cmp c " like " x H).
  - rewrite sql_AllOf. cbn [bound_values nph].
    eapply writes_ext; [intros k; symmetry; apply text_AllOf|].
    induction H as [|x l Hx Hl IH]; [apply writes_nop|].
    cbn [sql_all]. destruct l as [|y l].
    + cbn. eapply writes_cast; [exact Hx|now rewrite app_nil_r|now rewrite Nat.add_0_r].
    + eapply writes_cast.
      * eapply writes_ext; [|apply writes_seq; [apply writes_seq; [exact Hx|apply writes_wr]|exact IH]].
        intros k. cbn beta. now rewrite Nat.add_0_r, <- str_app_assoc.
      * cbn [flat_map]. now rewrite app_nil_r.
      * cbn [fold_right]. lia.
  - eapply writes_cast.
    + eapply writes_ext; [|apply writes_seq; [apply writes_seq; [exact Ha|apply writes_wr]|exact Hb]].
      intros k. cbn beta. now rewrite Nat.add_0_r, <- str_app_assoc.
    + cbn. now rewrite app_nil_r.
    + cbn [nph]. lia.
  - eapply writes_cast.
    + eapply writes_ext; [|apply writes_seq; [apply writes_seq; [exact Ha|apply writes_wr]|exact Hb]].
      intros k. cbn beta. now rewrite Nat.add_0_r, <- str_app_assoc.
    + cbn. now rewrite app_nil_r.
    + cbn [nph]. lia.
  - eapply writes_cast.
    + eapply writes_ext; [|apply writes_seq; [apply writes_wr|exact Ha]].
      intros k. cbn beta. now rewrite Nat.add_0_r.
    + reflexivity.
    + reflexivity.
  - cbn [sql_for_cond]. eapply writes_cast.
    + eapply writes_ext; [|repeat first [eapply writes_seq|apply writes_wr|exact Ha]].
      intros k. cbn beta. rewrite ?Nat.add_0_r, <- ?str_app_assoc. reflexivity.
    + cbn. now rewrite app_nil_r.
    + cbn [nph]. lia.
  - cbn [sql_for_cond]. eapply writes_cast.
    + eapply writes_ext; [|repeat first [eapply writes_seq|apply writes_wr|apply writes_vals]].
      intros k. cbn beta. rewrite ?Nat.add_0_r, <- ?str_app_assoc. reflexivity.
    + cbn. now rewrite app_nil_r.
    + cbn [nph]. lia.
  - cbn [sql_for_cond]. eapply writes_cast.
    + eapply writes_ext; [|repeat first [eapply writes_seq|apply writes_wr|apply writes_column|apply writes_joins|exact Ha]].
      intros k. cbn beta. rewrite ?Nat.add_0_r, <- ?str_app_assoc. reflexivity.
    + cbn. now rewrite app_nil_r.
    + cbn [nph]. lia.
Qed.
End Writer.
End Text.
