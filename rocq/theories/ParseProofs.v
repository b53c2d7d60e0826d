(** Parsing the tokens of a generated filter gives an expression that means the
    filter. *)
From Verif Require Import Base SqlVal Sql Query QuerySpec LexProofs RenderProofs TokProofs.

(** * Three-valued logic *)

Lemma to_of_tv t : to_tv (of_tv t) = Some t.
Proof. now destruct t. Qed.
Lemma of_to_tv v t : to_tv v = Some t -> v = of_tv t.
Proof. destruct v; cbn; try discriminate; intros [= <-]; reflexivity. Qed.
Lemma and3_true_r t : and3 t (Some true) = t.
Proof. now destruct t as [[]|]. Qed.
Lemma or3_false_r t : or3 t (Some false) = t.
Proof. now destruct t as [[]|]. Qed.
Lemma and3_assoc a b c : and3 a (and3 b c) = and3 (and3 a b) c.
Proof. now destruct a as [[]|], b as [[]|], c as [[]|]. Qed.
Lemma or3_assoc a b c : or3 a (or3 b c) = or3 (or3 a b) c.
Proof. now destruct a as [[]|], b as [[]|], c as [[]|]. Qed.
Lemma and_all_app l m : and_all (l ++ m) = and3 (and_all l) (and_all m).
Proof.
  induction l as [|x l IH].
  - change (and_all m = and3 (Some true) (and_all m)). now destruct (and_all m) as [[]|].
  - change (and3 x (and_all (l ++ m)) = and3 (and3 x (and_all l)) (and_all m)).
    now rewrite IH, and3_assoc.
Qed.
Lemma or_all_app l m : or_all (l ++ m) = or3 (or_all l) (or_all m).
Proof.
  induction l as [|x l IH].
  - change (or_all m = or3 (Some false) (or_all m)). now destruct (or_all m) as [[]|].
  - change (or3 x (or_all (l ++ m)) = or3 (or3 x (or_all l)) (or_all m)).
    now rewrite IH, or3_assoc.
Qed.

Lemma all_some_app {A} (l m : list (option A)) a b :
  all_some l = Some a -> all_some m = Some b -> all_some (l ++ m) = Some (a ++ b).
Proof.
  revert a. induction l as [|[x|] l IH]; intros a; cbn.
  - intros [= <-]. auto.
  - destruct (all_some l) as [a'|]; [|discriminate]. cbn. intros [= <-] Hm.
    now rewrite (IH a' eq_refl Hm).
  - discriminate.
Qed.
Lemma all_some_map_some {A} (l : list A) : all_some (map Some l) = Some l.
Proof. induction l as [|x l IH]; cbn; [reflexivity|now rewrite IH]. Qed.
Lemma all_some_cons {A} (x : option A) l r :
  all_some (x :: l) = Some r -> exists a l', x = Some a /\ all_some l = Some l' /\ r = a :: l'.
Proof.
  destruct x as [a|]; cbn; [|discriminate]. destruct (all_some l) as [l'|]; [|discriminate].
  intros [= <-]. eauto.
Qed.
Lemma all_some_ext {A B} (f g : A -> option B) l r :
  (forall x y, In x l -> f x = Some y -> g x = Some y) ->
  all_some (map f l) = Some r -> all_some (map g l) = Some r.
Proof.
  revert r. induction l as [|x l IH]; intros r H.
  - auto.
  - cbn [map]. intros E. apply all_some_cons in E as (a & l' & Ea & El & ->).
    rewrite (H x a (or_introl eq_refl) Ea). cbn. rewrite (IH l'); [reflexivity| |assumption].
    intros y z Hy. apply H. now right.
Qed.

(** * Scopes *)

Lemma lookup_outer c f scope v : lookup c [f] = Some v -> lookup c (f :: scope) = Some v.
Proof. cbn. destruct (candidates c f) as [|x [|]]; auto; discriminate. Qed.

Lemma select_frames_ext (c1 c2 : frame -> option tv) fs r :
  (forall f t, c1 f = Some t -> c2 f = Some t) ->
  select_frames c1 fs = Some r -> select_frames c2 fs = Some r.
Proof.
  intros H. revert r. induction fs as [|f fs IH]; intros r; cbn; [auto|].
  destruct (c1 f) as [t|] eqn:E1; [|discriminate].
  destruct (select_frames c1 fs) as [l|]; [|destruct t as [[]|]; discriminate].
  rewrite (H f t E1), (IH l eq_refl). auto.
Qed.

Lemma join_frames_outer E D scope js : forall fs r,
  join_frames E D [] js fs = Some r -> join_frames E D scope js fs = Some r.
Proof.
  induction js as [|[[t a] b] js IH]; intros fs r; cbn [join_frames]; [auto|].
  intros H. unfold obind2 in *.
  match type of H with context [match all_some (map ?F fs) with _ => _ end] => set (G := F) in * end.
  destruct (all_some (map G fs)) as [l|] eqn:El; [|discriminate].
  match goal with |- context [match all_some (map ?F fs) with _ => _ end] => set (G' := F) end.
  assert (X : all_some (map G' fs) = Some l).
  { apply (all_some_ext G G'); [|assumption]. intros f y _ Hy. unfold G, G' in *.
    eapply all_some_ext; [|exact Hy]. intros r0 z _ Hz. cbv beta zeta in Hz |- *.
    revert Hz.
    match goal with |- context [match lookup a ?F0 with _ => _ end = Some z -> _] => destruct (lookup a F0) as [x|] eqn:E1; [|discriminate] end.
    match goal with |- context [match lookup b ?F0 with _ => _ end = Some z -> _] => destruct (lookup b F0) as [x'|] eqn:E2; [|discriminate] end.
    intros Hz. rewrite (lookup_outer _ _ scope _ E1), (lookup_outer _ _ scope _ E2). assumption. }
  rewrite X. apply IH. assumption.
Qed.

(** Unfolding equations of the parser. *)
Section Unfold.
Variable d : dialect.
Lemma p_or_S f ts : p_or d (S f) ts =
    match p_and d f ts with
    | None => None
    | Some (x, r) => match p_or_more d f r with
                     | None => None
                     | Some (xs, r') => Some (SOr (x :: xs), r')
                     end
    end.
Proof. reflexivity. Qed.
Lemma p_or_more_S f ts : p_or_more d (S f) ts =
    match eat "OR" ts with
    | None => Some ([], ts)
    | Some r => match p_and d f r with
                | None => None
                | Some (x, r) => match p_or_more d f r with
                                 | None => None
                                 | Some (xs, r') => Some (x :: xs, r')
                                 end
                end
    end.
Proof. reflexivity. Qed.
Lemma p_and_S f ts : p_and d (S f) ts =
    match p_not d f ts with
    | None => None
    | Some (x, r) => match p_and_more d f r with
                     | None => None
                     | Some (xs, r') => Some (SAnd (x :: xs), r')
                     end
    end.
Proof. reflexivity. Qed.
Lemma p_and_more_S f ts : p_and_more d (S f) ts =
    match eat "AND" ts with
    | None => Some ([], ts)
    | Some r => match p_not d f r with
                | None => None
                | Some (x, r) => match p_and_more d f r with
                                 | None => None
                                 | Some (xs, r') => Some (x :: xs, r')
                                 end
                end
    end.
Proof. reflexivity. Qed.
Lemma p_not_S f ts : p_not d (S f) ts =
    match eat "NOT" ts with
    | Some r => match p_not d f r with Some (x, r') => Some (SNot x, r') | None => None end
    | None => p_pred d f ts
    end.
Proof. reflexivity. Qed.
Lemma p_pred_S f ts : p_pred d (S f) ts =
    match p_operand d f ts with
    | None => None
    | Some (a, r) =>
      match p_op r with
      | Some (o, r) => match p_operand d f r with
                       | Some (b, r') => Some (SCmp o a b, r')
                       | None => None
                       end
      | None =>
      match eat "LIKE" r with
      | Some r => match p_operand d f r with
                  | Some (b, r') => Some (SLike a b, r')
                  | None => None
                  end
      | None =>
      match eat "IS" r with
      | Some r => match eat "NULL" r with
                  | Some r' => Some (SIsNull a, r')
                  | None => match eat "NOT" r with
                            | None => None
                            | Some r => match eat "NULL" r with
                                        | Some r' => Some (SIsNotNull a, r')
                                        | None => None
                                        end
                            end
                  end
      | None =>
      match eat "IN" r with
      | Some (TLP :: r) =>
          match eat "SELECT" r with
          | Some r =>
            let '(dist, r) := match eat "DISTINCT" r with Some r' => (true, r') | None => (false, r) end in
            match p_colref d r with None => None | Some (c, r) =>
            match eat "FROM" r with None => None | Some r =>
            match p_name d r with None => None | Some (t, r) =>
            match p_joins d f r with None => None | Some (js, r) =>
            match eat "WHERE" r with None => None | Some r =>
            match p_or d f r with
            | Some (w, TRP :: r') => Some (SInSelect a dist c t js w, r')
            | _ => None
            end end end end end end
          | None =>
            match r with
            | TRP :: r' => if d_empty_in d then Some (SIn a [], r') else None
            | _ => match p_operand d f r with
                   | None => None
                   | Some (x, r) => match p_list d f r with
                                    | Some (xs, TRP :: r') => Some (SIn a (x :: xs), r')
                                    | _ => None
                                    end
                   end
            end
          end
      | Some _ => None
      | None => Some (a, r)
      end end end end
    end.
Proof. reflexivity. Qed.
Lemma p_list_S f ts : p_list d (S f) ts =
    match ts with
    | TComma :: r => match p_operand d f r with
                     | None => None
                     | Some (x, r) => match p_list d f r with
                                      | None => None
                                      | Some (xs, r') => Some (x :: xs, r')
                                      end
                     end
    | _ => Some ([], ts)
    end.
Proof. reflexivity. Qed.
Lemma p_operand_S f ts : p_operand d (S f) ts =
    match ts with
    | TMinus :: TNumber s :: r =>
        match number_of s with Some n => Some (SLit (VBigInt (- n)), r) | None => None end
    | TNumber s :: r =>
        match number_of s with Some n => Some (SLit (VBigInt n), r) | None => None end
    | TStr s :: r => Some (SLit (VText s), r)
    | TParam n :: r => Some (SParam n, r)
    | TLP :: r => match p_or d f r with
                  | Some (x, TRP :: r') => Some (x, r')
                  | _ => None
                  end
    | _ =>
      match eat "TRUE" ts with Some r => Some (SLit (VBool true), r) | None =>
      match eat "FALSE" ts with Some r => Some (SLit (VBool false), r) | None =>
      match eat "NULL" ts with Some r => Some (SLit VNull, r) | None =>
      match p_colref d ts with Some (c, r) => Some (SCol c, r) | None => None
      end end end end
    end.
Proof. reflexivity. Qed.
End Unfold.

(** * Parsing *)

Section Parse.
Variable d : dialect.
Variable kw : string -> bool.
Hypothesis KW : quotes_enough kw d.
Definition ptok (k : nat) : tok := TParam (Z.of_nat k).
Notation toks := (toks kw ptok).

(** What may come after a condition. *)
Definition stop_words : list string := ["AND"; "OR"; "ORDER"; "LIMIT"; "OFFSET"; "RETURNING"].
Definition follow (ts : list tok) : Prop :=
  match ts with
  | [] => True
  | TRP :: _ | TSemi :: _ => True
  | TWord w :: _ => In (upper w) stop_words
  | _ => False
  end.
Definition head_not (k : string) (ts : list tok) : Prop := eat k ts = None.

Definition not_like_head (ts : list tok) : Prop := follow ts.

Lemma eat_self w k r : String.eqb (upper w) k = true -> eat k (TWord w :: r) = Some r.
Proof. cbn. now intros ->. Qed.
Lemma follow_eat k ts : follow ts -> ~ In k stop_words -> eat k ts = None.
Proof.
  destruct ts as [|[] ts]; cbn [follow eat is_kw]; try reflexivity; try contradiction.
  intros H N. destruct (String.eqb_spec (upper w) k); [subst; contradiction|reflexivity].
Qed.
Lemma follow_op ts : follow ts -> p_op ts = None.
Proof. now destruct ts as [|[] ts]. Qed.

Lemma p_name_q w r : p_name d (qtok kw w :: r) = Some (w, r).
Proof.
  unfold qtok. destruct (kw w) eqn:E; [reflexivity|]. cbn.
  destruct (reserved d w) eqn:R; [|reflexivity]. apply KW in R. congruence.
Qed.
Definition no_dot (r : list tok) : Prop := match r with TDot :: _ => False | _ => True end.
Lemma follow_no_dot r : follow r -> no_dot r.
Proof. now destruct r as [|[] r]. Qed.

Lemma p_colref_name ts w r : p_name d ts = Some (w, r) -> no_dot r -> p_colref d ts = Some ((None, w), r).
Proof. unfold p_colref. intros ->. destruct r as [|[] r]; cbn; intuition. Qed.
Lemma p_colref_col c r : column_ok d c -> no_dot r ->
  p_colref d (kcol kw c ++ r) = Some (colref_of c, r).
Proof.
  unfold column_ok, kcol, colref_of. destruct (col_table c) as [t|].
  - intros _ _. unfold p_colref. cbn [List.app]. rewrite p_name_q. cbn [List.app]. rewrite p_name_q. reflexivity.
  - intros [_ R] Hn. apply p_colref_name; [|assumption]. cbn. now rewrite R.
Qed.

Lemma core_eat k w r : In k core_words -> reserved d w = false -> eat k (TWord w :: r) = None.
Proof.
  unfold reserved. intros Hk R. apply orb_false_iff in R as [R _].
  cbn. destruct (String.eqb_spec (upper w) k) as [E|]; [|reflexivity].
  exfalso. apply kmem_not_In in R. apply R. now rewrite E.
Qed.
Lemma core_eat_q k w r : In k core_words -> eat k (qtok kw w :: r) = None.
Proof.
  intros Hk. unfold qtok. destruct (kw w) eqn:E; [reflexivity|]. apply core_eat; [assumption|].
  destruct (reserved d w) eqn:R; [|reflexivity]. apply KW in R. congruence.
Qed.

Ltac core := cbv; tauto.
Lemma operand_q w f r : no_dot r -> p_operand d (S f) (qtok kw w :: r) = Some (SCol (None, w), r).
Proof.
  intros Hn.
  assert (E : forall k, In k core_words -> eat k (qtok kw w :: r) = None) by (intros; now apply core_eat_q).
  assert (C : p_colref d (qtok kw w :: r) = Some ((None, w), r))
    by (apply p_colref_name; [apply p_name_q|assumption]).
  assert (N : exists u, qtok kw w = TWord u \/ qtok kw w = TQuoted u)
    by (exists w; unfold qtok; destruct (kw w); auto).
  destruct N as [u [N|N]]; rewrite N in *; cbn [p_operand];
    rewrite (E "TRUE") by core; rewrite (E "FALSE") by core; rewrite (E "NULL") by core; now rewrite C.
Qed.
Lemma operand_bare w f r : bare_name d w -> no_dot r ->
  p_operand d (S f) (TWord w :: r) = Some (SCol (None, w), r).
Proof.
  intros [_ R] Hn.
  assert (E : forall k, In k core_words -> eat k (TWord w :: r) = None) by (intros; now apply core_eat).
  assert (C : p_colref d (TWord w :: r) = Some ((None, w), r))
    by (apply p_colref_name; [cbn; now rewrite R|assumption]).
  cbn [p_operand].
  rewrite (E "TRUE") by core; rewrite (E "FALSE") by core; rewrite (E "NULL") by core; now rewrite C.
Qed.

(** The expression an operand is read as. *)
Definition sval_of (k : nat) (v : SqlVal) : sexp :=
  match v with VInt i | VBigInt i => SLit (VBigInt i) | _ => SParam (Z.of_nat k) end.
Definition sop (k : nat) (x : Expr) : sexp :=
  match x with EColumn c => SCol (None, c) | EVal v => sval_of k v | _ => SLit VNull end.

Lemma operand_val k v f r : p_operand d (S f) (kval ptok k v ++ r) = Some (sval_of k v, r).
Proof. destruct v; try reflexivity; apply operand_znum. Qed.
Lemma operand_op k x f r : operand_ok x -> no_dot r ->
  p_operand d (S f) (kop kw ptok k x ++ r) = Some (sop k x, r).
Proof.
  destruct x as [c|v| |]; cbn [operand_ok kop]; intros H Hn; try contradiction.
  - cbn [List.app]. now apply operand_q.
  - apply operand_val.
Qed.

(** ** What the parsed expression means *)

(** [V] holds the values [vs] as parameters k, k+1, ... *)
Definition carries (V : list SqlVal) (k : nat) (vs : list SqlVal) : Prop :=
  1 <= k /\ forall i v, nth_error vs i = Some v -> nth_error V (k - 1 + i) = Some v.
Lemma carries_l V k a b : carries V k (a ++ b) -> carries V k a.
Proof.
  intros [H1 H]. split; [assumption|]. intros i v Hi. apply H. rewrite nth_error_app1; [assumption|].
  apply nth_error_Some. congruence.
Qed.
Lemma carries_r V k a b : carries V k (a ++ b) -> carries V (k + List.length a) b.
Proof.
  intros [H1 H]. split; [lia|]. intros i v Hi.
  replace (k + List.length a - 1 + i) with (k - 1 + (List.length a + i)) by lia.
  apply H. rewrite nth_error_app2 by lia. now replace (List.length a + i - List.length a) with i by lia.
Qed.
Lemma carries_param V k v vs : carries V k (v :: vs) -> param V (Z.of_nat k) = Some v.
Proof.
  intros [H1 H]. unfold param. destruct (Z.ltb_spec 0 (Z.of_nat k)); [|lia].
  specialize (H 0 v eq_refl). replace (Z.to_nat (Z.of_nat k - 1)) with (k - 1 + 0) by lia. assumption.
Qed.

(** The value read for [v], up to the size of integers. *)
Definition widen (v : SqlVal) : SqlVal := match v with VInt i => VBigInt i | _ => v end.
Lemma sval_val E D V scope k v : carries V k (bound v) ->
  sval E D V scope (sval_of k v) = Some (widen v).
Proof. destruct v; cbn; intros H; try reflexivity; exact (carries_param _ _ _ _ H). Qed.
Lemma compare_widen E o x v : engine_ok E -> compare3 E o x (widen v) = compare3 E o x v.
Proof. intros K. unfold compare3. destruct v; try reflexivity. cbn. now rewrite (int_cmp E K). Qed.
Lemma like_widen E x v : engine_ok E -> e_like E x (widen v) = e_like E x v.
Proof. intros K. destruct v; try reflexivity. cbn. now rewrite (int_like E K). Qed.
Lemma in3_widen E x vs : engine_ok E -> in3 E x (map widen vs) = in3 E x vs.
Proof. intros K. induction vs as [|v vs IH]; [reflexivity|].
  change (or3 (compare3 E CEq x (widen v)) (in3 E x (map widen vs)) = or3 (compare3 E CEq x v) (in3 E x vs)).
  now rewrite compare_widen, IH. Qed.

Definition reads (k : nat) (e : BoolExpr) (x : sexp) : Prop :=
  forall E D V scope f t, engine_ok E -> carries V k (bound_values e) ->
    means E D f e = Some t -> sval E D V (f :: scope) x = Some (of_tv t).

Definition parses (p : nat -> list tok -> option (sexp * list tok)) (c : nat) (ok : list tok -> Prop)
  (ts : list tok) (x : sexp) : Prop :=
  forall fu rest, follow rest -> ok rest -> 8 * List.length ts + c <= fu -> p fu (ts ++ rest) = Some (x, rest).
Definition any (_ : list tok) : Prop := True.

Definition P_not (k : nat) (e : BoolExpr) : Prop :=
  exists x, parses (p_not d) 3 any (toks k e) x /\ reads k e x.

Fixpoint glue (w : string) (l : list (list tok)) : list tok :=
  match l with [] => [] | [a] => a | a :: r => a ++ TWord w :: glue w r end.

Definition truths E D V scope (xs : list sexp) : option (list tv) :=
  all_some (map (fun x => obind2 (sval E D V scope x) to_tv) xs).

Definition P_and (k : nat) (e : BoolExpr) : Prop :=
  exists segs : list (list tok * sexp), segs <> [] /\ toks k e = glue "AND" (map fst segs)
    /\ Forall (fun s => parses (p_not d) 3 any (fst s) (snd s)) segs
    /\ forall E D V scope f t, engine_ok E -> carries V k (bound_values e) -> means E D f e = Some t ->
         exists ts, truths E D V (f :: scope) (map snd segs) = Some ts /\ and_all ts = t.

Definition P_or (k : nat) (e : BoolExpr) : Prop :=
  exists segs : list (list tok * sexp), segs <> [] /\ toks k e = glue "OR" (map fst segs)
    /\ Forall (fun s => parses (p_and d) 4 (head_not "AND") (fst s) (snd s)) segs
    /\ forall E D V scope f t, engine_ok E -> carries V k (bound_values e) -> means E D f e = Some t ->
         exists ts, truths E D V (f :: scope) (map snd segs) = Some ts /\ or_all ts = t.

Lemma not_and k e : P_not k e -> P_and k e.
Proof.
  intros (x & Hp & Hr). exists [(toks k e, x)]. split; [congruence|]. split; [reflexivity|].
  split; [auto|]. intros E D V scope f t K C M. exists [t]. cbn.
  rewrite (Hr E D V scope f t K C M). cbn. rewrite to_of_tv. split; [reflexivity|apply and3_true_r].
Qed.

Lemma p_and_more_glue segs : Forall (fun s => parses (p_not d) 3 any (fst s) (snd s)) segs ->
  forall fu rest, follow rest -> head_not "AND" rest ->
  8 * List.length (flat_map (fun s => TWord "AND" :: fst s) segs) + 4 <= fu ->
  p_and_more d fu (flat_map (fun s => TWord "AND" :: fst s) segs ++ rest) = Some (map snd segs, rest).
Proof.
  induction 1 as [|s segs Hs _ IH]; intros fu rest Hf Hn Hl.
  - destruct fu as [|fu]; [cbn in Hl; lia|]. cbn. unfold head_not in Hn. now rewrite Hn.
  - cbn [flat_map map] in *. rewrite app_length in Hl. cbn [List.length] in Hl.
    destruct fu as [|fu]; [lia|]. cbn [List.app p_and_more]. cbn [eat is_kw].
    change (String.eqb (upper "AND") "AND") with true. cbn iota.
    rewrite <- app_assoc. rewrite Hs; [|destruct segs; cbn; [assumption|auto]|exact I|lia].
    rewrite IH; [reflexivity|assumption|assumption|lia].
Qed.
Lemma glue_flat w a l : glue w (a :: l) = a ++ flat_map (fun x => TWord w :: x) l.
Proof.
  revert a. induction l as [|b l IH]; intros a; [cbn; now rewrite app_nil_r|].
  change (glue w (a :: b :: l)) with (a ++ TWord w :: glue w (b :: l)). now rewrite IH.
Qed.
Lemma flat_map_map {A B C} (f : A -> B) (g : B -> list C) l : flat_map g (map f l) = flat_map (fun x => g (f x)) l.
Proof. induction l as [|x l IH]; cbn; [reflexivity|now rewrite IH]. Qed.

Lemma and_parse segs : segs <> [] -> Forall (fun s => parses (p_not d) 3 any (fst s) (snd s)) segs ->
  parses (p_and d) 4 (head_not "AND") (glue "AND" (map fst segs)) (SAnd (map snd segs)).
Proof.
  intros NE F fu rest Hf Hn Hl. destruct segs as [|s segs]; [congruence|]. inversion F; subst.
  cbn [map] in *. rewrite glue_flat, flat_map_map in *. rewrite app_length in Hl.
  destruct fu as [|fu]; [lia|]. cbn [p_and]. rewrite <- app_assoc.
  rewrite H1; [|destruct segs; cbn; [assumption|auto]|exact I|lia].
  destruct segs as [|s2 segs].
  - destruct fu as [|fu]; [lia|]. cbn. unfold head_not in Hn. now rewrite Hn.
  - rewrite p_and_more_glue; [reflexivity|assumption|assumption|assumption|].
    cbn [flat_map List.length List.app] in *. destruct s as [ts x]. cbn [fst] in *. 
    destruct ts as [|t0 ts]; [|cbn in Hl; lia].
    exfalso. specialize (H1 3 [] I I). cbn in H1. specialize (H1 (le_n _)). discriminate.
Qed.

Lemma sval_and E D V scope xs ts : xs <> [] -> truths E D V scope xs = Some ts ->
  sval E D V scope (SAnd xs) = Some (of_tv (and_all ts)).
Proof.
  intros NE H. unfold truths in H. destruct xs as [|x [|y r]]; [congruence| |].
  - cbn in H. cbn. destruct (sval E D V scope x) as [v|]; [|discriminate]. cbn in H.
    destruct (to_tv v) as [t|] eqn:Ev; [|discriminate]. cbn in H. injection H as <-.
    apply of_to_tv in Ev. subst. cbn. now rewrite and3_true_r.
  - cbn [sval]. unfold obind2 at 1. now rewrite H.
Qed.
Lemma sval_or E D V scope xs ts : xs <> [] -> truths E D V scope xs = Some ts ->
  sval E D V scope (SOr xs) = Some (of_tv (or_all ts)).
Proof.
  intros NE H. unfold truths in H. destruct xs as [|x [|y r]]; [congruence| |].
  - cbn in H. cbn. destruct (sval E D V scope x) as [v|]; [|discriminate]. cbn in H.
    destruct (to_tv v) as [t|] eqn:Ev; [|discriminate]. cbn in H. injection H as <-.
    apply of_to_tv in Ev. subst. cbn. now rewrite or3_false_r.
  - cbn [sval]. unfold obind2 at 1. now rewrite H.
Qed.
Lemma map_ne {A B} (f : A -> B) l : l <> [] -> map f l <> [].
Proof. destruct l; cbn; congruence. Qed.

Lemma and_or k e : P_and k e -> P_or k e.
Proof.
  intros (segs & NE & Et & F & Hr). exists [(toks k e, SAnd (map snd segs))].
  split; [congruence|]. split; [reflexivity|]. split.
  - constructor; [|constructor]. cbn [fst snd]. rewrite Et. now apply and_parse.
  - intros E D V scope f t K C M. destruct (Hr E D V scope f t K C M) as (ts & Hts & <-).
    exists [and_all ts]. cbn [map truths all_some snd].
    unfold truths. cbn [map all_some]. rewrite (sval_and _ _ _ _ _ _ (map_ne _ _ NE) Hts).
    cbn [obind2]. rewrite to_of_tv. cbn. split; [reflexivity|apply or3_false_r].
Qed.

Lemma p_or_more_glue segs : Forall (fun s => parses (p_and d) 4 (head_not "AND") (fst s) (snd s)) segs ->
  forall fu rest, follow rest -> head_not "AND" rest -> head_not "OR" rest ->
  8 * List.length (flat_map (fun s => TWord "OR" :: fst s) segs) + 5 <= fu ->
  p_or_more d fu (flat_map (fun s => TWord "OR" :: fst s) segs ++ rest) = Some (map snd segs, rest).
Proof.
  induction 1 as [|s segs Hs _ IH]; intros fu rest Hf Ha Hn Hl.
  - destruct fu as [|fu]; [cbn in Hl; lia|]. cbn. unfold head_not in Hn. now rewrite Hn.
  - cbn [flat_map map] in *. rewrite app_length in Hl. cbn [List.length] in Hl.
    destruct fu as [|fu]; [lia|]. cbn [List.app p_or_more]. cbn [eat is_kw].
    change (String.eqb (upper "OR") "OR") with true. cbn iota.
    rewrite <- app_assoc.
    rewrite Hs; [|destruct segs; cbn; [assumption|auto]|destruct segs; cbn; [assumption|reflexivity]|lia].
    rewrite IH; [reflexivity|assumption|assumption|assumption|lia].
Qed.

Lemma or_parse segs : segs <> [] -> Forall (fun s => parses (p_and d) 4 (head_not "AND") (fst s) (snd s)) segs ->
  parses (p_or d) 5 (fun r => head_not "AND" r /\ head_not "OR" r) (glue "OR" (map fst segs)) (SOr (map snd segs)).
Proof.
  intros NE F fu rest Hf [Ha Hn] Hl. destruct segs as [|s segs]; [congruence|]. inversion F; subst.
  cbn [map] in *. rewrite glue_flat, flat_map_map in *. rewrite app_length in Hl.
  destruct fu as [|fu]; [lia|]. cbn [p_or]. rewrite <- app_assoc.
  rewrite H1; [|destruct segs; cbn; [assumption|auto]|destruct segs; cbn; [assumption|reflexivity]|lia].
  destruct segs as [|s2 segs].
  - destruct fu as [|fu]; [lia|]. cbn. unfold head_not in Hn. now rewrite Hn.
  - rewrite p_or_more_glue; [reflexivity|assumption|assumption|assumption|assumption|].
    cbn [flat_map List.length List.app] in *. destruct s as [ts x]. cbn [fst] in *.
    destruct ts as [|t0 ts]; [|cbn in Hl; lia].
    exfalso. specialize (H1 4 [] I eq_refl). cbn in H1. specialize (H1 (le_n _)). discriminate.
Qed.

(** The whole condition, at the top or inside brackets. *)
Lemma P_or_parse k e : P_or k e ->
  exists x, parses (p_or d) 5 (fun r => head_not "AND" r /\ head_not "OR" r) (toks k e) x /\ reads k e x.
Proof.
  intros (segs & NE & Et & F & Hr). exists (SOr (map snd segs)). split.
  - rewrite Et. now apply or_parse.
  - intros E D V scope f t K C M. destruct (Hr E D V scope f t K C M) as (ts & Hts & <-).
    now apply sval_or; [apply map_ne|].
Qed.

Lemma glue_app w a b : a <> [] -> b <> [] -> glue w (a ++ b) = glue w a ++ TWord w :: glue w b.
Proof.
  intros Ha Hb. induction a as [|x [|y a] IH]; [congruence| |].
  - destruct b as [|z b]; [congruence|]. reflexivity.
  - change (glue w ((x :: y :: a) ++ b)) with (x ++ TWord w :: glue w ((y :: a) ++ b)).
    rewrite IH by congruence. change (glue w (x :: y :: a)) with (x ++ TWord w :: glue w (y :: a)).
    now rewrite <- app_assoc.
Qed.

(** ** Atoms *)

Ltac fu3 fu := destruct fu as [|[|[|fu]]]; [cbn in *; lia|cbn in *; lia|cbn in *; lia|].
Ltac corew := cbv; tauto.

Lemma rhs_val E D V scope f k x y :
  operand_ok x -> carries V k (boundop x) -> rhs f x = Some y ->
  exists y', sval E D V (f :: scope) (sop k x) = Some y'
    /\ (y' = y \/ exists v, x = EVal v /\ y = v /\ y' = widen v).
Proof.
  destruct x as [c|v| |]; cbn [operand_ok boundop rhs sop]; intros Hx C H; try contradiction.
  - exists y. split; [|auto]. cbn. now apply lookup_outer.
  - injection H as <-. exists (widen v). split; [now apply sval_val|]. right. eauto.
Qed.

Lemma cmp_atom k e c x (cmp : engine -> SqlVal -> SqlVal -> tv) mk t0 :
  bare_name d c -> operand_ok x ->
  toks k e = TWord c :: t0 :: kop kw ptok k x ->
  bound_values e = boundop x ->
  (forall E D f, means E D f e = compare_col f c x (cmp E)) ->
  (forall E a b, engine_ok E -> cmp E a (widen b) = cmp E a b) ->
  (forall fu a b r r', no_dot (t0 :: r) /\
     (p_operand d fu r = Some (b, r') ->
      p_operand d fu (TWord c :: t0 :: r) = Some (a, t0 :: r) ->
      p_pred d (S fu) (TWord c :: t0 :: r) = Some (mk a b, r'))) ->
  (forall E D V scope a b x y, sval E D V scope a = Some x -> sval E D V scope b = Some y ->
     sval E D V scope (mk a b) = Some (of_tv (cmp E x y))) ->
  P_not k e.
Proof.
  intros Hc Hx Et Eb Em Ew Ep Es. exists (mk (SCol (None, c)) (sop k x)). split.
  - intros fu rest Hf _ Hl. rewrite Et in *. destruct Hc as [Hi R].
    destruct fu as [|[|[|fu]]]; [cbn in Hl; lia|cbn in Hl; lia|cbn in Hl; lia|].
    cbn [List.app]. rewrite p_not_S. rewrite core_eat; [|corew|assumption].
    destruct (Ep (S fu) (SCol (None, c)) (sop k x) (kop kw ptok k x ++ rest) rest) as [Hn Hp].
    apply Hp.
    + apply operand_op; [assumption|now apply follow_no_dot].
    + apply operand_bare; [split; assumption|assumption].
  - intros E D V scope f t K C M. rewrite Em in M. rewrite Eb in C.
    unfold compare_col in M. unfold obind2 in M.
    destruct (lookup (None, c) [f]) as [a|] eqn:El; [|discriminate].
    destruct (rhs f x) as [y|] eqn:Ey; [|discriminate]. injection M as <-.
    destruct (rhs_val E D V scope f k x y Hx C Ey) as (y' & Sy & Hy).
    rewrite (Es E D V (f :: scope) _ _ a y'); [|now apply lookup_outer|assumption].
    destruct Hy as [->|(v & _ & -> & ->)]; [reflexivity|]. now rewrite Ew.
Qed.

Lemma cmp_atom_op k e c x o :
  bare_name d c -> operand_ok x ->
  toks k e = TWord c :: TOp o :: kop kw ptok k x ->
  bound_values e = boundop x ->
  (forall E D f, means E D f e = compare_col f c x (compare3 E o)) ->
  P_not k e.
Proof.
  intros Hc Hx Et Eb Em.
  apply (cmp_atom k e c x (fun E => compare3 E o) (SCmp o) (TOp o)); auto.
  - intros. now apply compare_widen.
  - intros fu a b r r'. split; [exact I|]. intros H1 H2. rewrite p_pred_S. rewrite H2. cbn [p_op]. now rewrite H1.
  - intros E D V scope a b x0 y Ha Hb. cbn [sval]. now rewrite Ha, Hb.
Qed.

Lemma null_atom k e c (neg : bool) :
  bare_name d c ->
  toks k e = TWord c :: TWord "IS" :: (if neg then [TWord "NOT"; TWord "NULL"] else [TWord "NULL"]) ->
  (forall E D f, means E D f e = obind2 (lookup (None, c) [f])
      (fun x => Some (Some (if neg then negb (is_null x) else is_null x)))) ->
  P_not k e.
Proof.
  intros Hc Et Em.
  exists (if neg then SIsNotNull (SCol (None, c)) else SIsNull (SCol (None, c))). split.
  - intros fu rest Hf _ Hl. rewrite Et in *.
    destruct fu as [|[|[|fu]]]; [cbn in Hl; lia|cbn in Hl; lia|cbn in Hl; lia|].
    cbn [List.app]. rewrite p_not_S. rewrite core_eat; [|corew|apply Hc].
    rewrite p_pred_S. rewrite operand_bare; [|assumption|exact I]. destruct neg; reflexivity.
  - intros E D V scope f t K C M. rewrite Em in M. unfold obind2 in M.
    destruct (lookup (None, c) [f]) as [a|] eqn:El; [|discriminate]. injection M as <-.
    destruct neg; cbn [sval]; rewrite (lookup_outer _ _ scope _ El); reflexivity.
Qed.

Fixpoint svals (k : nat) (vs : list SqlVal) : list sexp :=
  match vs with [] => [] | v :: r => sval_of k v :: svals (k + vph v) r end.

Fixpoint ktail (k : nat) (vs : list SqlVal) : list tok :=
  match vs with [] => [] | v :: r => TComma :: kval ptok k v ++ ktail (k + vph v) r end.
Lemma kvals_tail k v vs : kvals ptok k (v :: vs) = kval ptok k v ++ ktail (k + vph v) vs.
Proof.
  revert k v. induction vs as [|u r IH]; intros k v; [cbn; now rewrite app_nil_r|].
  change (kvals ptok k (v :: u :: r)) with (kval ptok k v ++ TComma :: kvals ptok (k + vph v) (u :: r)).
  now rewrite IH.
Qed.

Lemma p_list_vals vs : forall k fu rest,
  8 * List.length (ktail k vs) + 1 <= fu ->
  p_list d fu (ktail k vs ++ TRP :: rest) = Some (svals k vs, TRP :: rest).
Proof.
  induction vs as [|v r IH]; intros k fu rest H.
  - destruct fu as [|fu]; [lia|]. reflexivity.
  - cbn [ktail List.length] in H. rewrite app_length in H.
    destruct fu as [|[|fu]]; [lia|lia|]. cbn [ktail List.app]. rewrite <- app_assoc.
    set (more := ktail (k + vph v) r ++ TRP :: rest) in *.
    change (p_list d (S (S fu)) (TComma :: kval ptok k v ++ more)) with
      (match p_operand d (S fu) (kval ptok k v ++ more) with
       | None => None
       | Some (x, r) => match p_list d (S fu) r with
                        | None => None | Some (xs, r') => Some (x :: xs, r') end end).
    rewrite operand_val. unfold more. rewrite IH; [reflexivity|]. lia.
Qed.

Lemma kval_ne k v : exists t r, kval ptok k v = t :: r /\ t <> TRP /\ (forall w, eat w (t :: r) = None).
Proof.
  destruct v; cbn [kval]; try (eexists; eexists; split; [reflexivity|split; [discriminate|reflexivity]]).
  all: unfold znum; destruct (Z.to_int i); eexists; eexists; split; try reflexivity; split; try discriminate; reflexivity.
Qed.

Lemma svals_sval E D V scope vs : forall k, carries V k (flat_map bound vs) ->
  all_some (map (sval E D V scope) (svals k vs)) = Some (map widen vs).
Proof.
  induction vs as [|v vs IH]; intros k C; [reflexivity|].
  cbn [flat_map svals map] in *. rewrite sval_val by (eapply carries_l; eassumption). cbn [all_some].
  rewrite IH; [reflexivity|]. apply carries_r in C. exact C.
Qed.

Lemma in_atom k c vs :
  identifier c = true -> (vs = [] -> d_empty_in d = true) -> P_not k (BIn c vs).
Proof.
  intros Hc He. exists (SIn (SCol (None, c)) (svals k vs)). split.
  - intros fu rest Hf _ Hl. cbn [TokProofs.toks] in *.
    destruct fu as [|[|[|fu]]]; [lia|lia|lia|].
    cbn [List.app]. rewrite p_not_S. rewrite core_eat_q by corew.
    rewrite p_pred_S. rewrite operand_q by exact I. cbn [p_op].
    match goal with |- context [eat "LIKE" (?a :: ?r)] => change (eat "LIKE" (a :: r)) with (@None (list tok)) end.
    match goal with |- context [eat "IS" (?a :: ?r)] => change (eat "IS" (a :: r)) with (@None (list tok)) end.
    match goal with |- context [eat "IN" (?a :: ?r)] => change (eat "IN" (a :: r)) with (Some r) end.
    cbn iota. destruct vs as [|v vs].
    + cbn. now rewrite He.
    + rewrite kvals_tail in *. rewrite <- !app_assoc.
      destruct (kval_ne k v) as (t & r & Ev & Nt & Ne).
      pose proof (operand_val k v fu (ktail (k + vph v) vs ++ [TRP] ++ rest)) as Ho.
      rewrite Ev in Ho |- *. cbn [List.app] in Ho |- *.
      assert (Es : forall l, eat "SELECT" (t :: l) = None).
      { intros l. specialize (Ne "SELECT"). cbn in Ne |- *. now destruct (is_kw "SELECT" t). }
      rewrite Es. rewrite Ho.
      rewrite p_list_vals; [|cbn [List.length List.app] in Hl; rewrite !app_length in Hl; lia].
      cbn [svals]. destruct t; try reflexivity. congruence.
  - intros E D V scope f t K C M. cbn [means] in M. unfold obind2 in M.
    destruct (lookup (None, c) [f]) as [a|] eqn:El; [|discriminate]. injection M as <-.
    cbn [sval]. rewrite (lookup_outer _ _ scope _ El). cbn [obind2].
    rewrite svals_sval by assumption. cbn [obind2]. now rewrite in3_widen.
Qed.

Lemma like_atom k c x : bare_name d c -> operand_ok x -> P_not k (BLike c x).
Proof.
  intros Hc Hx. apply (cmp_atom k (BLike c x) c x (fun E => e_like E) SLike (TWord "like")); auto.
  - intros. now apply like_widen.
  - intros fu a b r r'. split; [exact I|]. intros H1 H2. rewrite p_pred_S. rewrite H2. cbn [p_op].
    change (eat "LIKE" (TWord "like" :: r)) with (Some r). cbn iota. now rewrite H1.
  - intros E D V scope a b x0 y Ha Hb. cbn [sval]. now rewrite Ha, Hb.
Qed.

Lemma true_atom k : P_not k BTrue.
Proof.
  exists (SLit (VBool true)). split.
  - intros fu rest Hf _ Hl. destruct fu as [|[|[|fu]]]; [cbn in Hl; lia|cbn in Hl; lia|cbn in Hl; lia|].
    cbn [TokProofs.toks List.app]. rewrite p_not_S.
    change (eat "NOT" (TWord "TRUE" :: rest)) with (@None (list tok)). cbn iota.
    rewrite p_pred_S, p_operand_S. change (eat "TRUE" (TWord "TRUE" :: rest)) with (Some rest). cbn iota.
    rewrite follow_op by assumption.
    rewrite (follow_eat "LIKE"), (follow_eat "IS"), (follow_eat "IN"); auto; cbv; intuition discriminate.
  - intros E D V scope f t K C M. cbn in M. injection M as <-. reflexivity.
Qed.

Lemma not_step k a : P_not k a -> P_not k (BNot a).
Proof.
  intros (x & Hp & Hr). exists (SNot x). split.
  - intros fu rest Hf _ Hl. cbn [TokProofs.toks List.length] in Hl.
    destruct fu as [|fu]; [lia|]. cbn [TokProofs.toks List.app]. rewrite p_not_S.
    change (eat "NOT" (TWord "NOT" :: ?r)) with (Some r).
    cbn iota. rewrite Hp; [reflexivity|assumption|exact I|lia].
  - intros E D V scope f t K C M. cbn [means] in M.
    destruct (means E D f a) as [ta|] eqn:Ea; [|discriminate]. injection M as <-.
    cbn [sval]. rewrite (Hr E D V scope f ta K C Ea). cbn [obind2]. now rewrite to_of_tv.
Qed.

Lemma p_joins_q js : Forall (fun j => identifier (join_table j) = true
                   /\ column_ok d (join_col1 j) /\ column_ok d (join_col2 j)) js ->
  forall fu r, List.length js <= fu ->
  p_joins d fu (flat_map (kjoin kw) js ++ TWord "WHERE" :: r) = Some (joins_of js, TWord "WHERE" :: r).
Proof.
  induction 1 as [|j js (Hj1 & Hj2 & Hj3) _ IH]; intros fu r Hl.
  - destruct fu; reflexivity.
  - cbn [List.length] in Hl. destruct fu as [|fu]; [lia|].
    cbn [flat_map joins_of map]. unfold kjoin at 1. rewrite <- app_assoc. cbn [List.app p_joins].
    match goal with |- context [eat "INNER" (?a :: ?r)] => change (eat "INNER" (a :: r)) with (Some r) end.
    cbn iota.
    match goal with |- context [eat "JOIN" (?a :: ?r)] => change (eat "JOIN" (a :: r)) with (Some r) end.
    cbn iota. rewrite p_name_q.
    match goal with |- context [eat "ON" (?a :: ?r)] => change (eat "ON" (a :: r)) with (Some r) end.
    cbn iota. rewrite <- app_assoc. rewrite p_colref_col by (assumption || exact I). cbn [List.app].
    rewrite p_colref_col; [|assumption|destruct js; exact I].
    rewrite IH by lia. reflexivity.
Qed.

Definition sub_parse k a := exists x,
  parses (p_or d) 5 (fun r => head_not "AND" r /\ head_not "OR" r) (toks k a) x /\ reads k a x.

Lemma subselect_pred k a x c c2 ctoks t js fu rest :
  parses (p_or d) 5 (fun r => head_not "AND" r /\ head_not "OR" r) (toks k a) x ->
  (forall r, no_dot r -> p_colref d (ctoks ++ r) = Some (c2, r)) ->
  (forall r, eat "DISTINCT" (ctoks ++ r) = None) ->
  Forall (fun j => identifier (join_table j) = true
                   /\ column_ok d (join_col1 j) /\ column_ok d (join_col2 j)) js ->
  8 * List.length (toks k a) + 6 <= fu -> List.length js <= fu ->
  p_pred d (S fu) (qtok kw c :: TWord "IN" :: TLP :: TWord "SELECT" :: ctoks ++ TWord "FROM" :: qtok kw t
      :: flat_map (kjoin kw) js ++ TWord "WHERE" :: toks k a ++ TRP :: rest)
  = Some (SInSelect (SCol (None, c)) false c2 t (joins_of js) x, rest).
Proof.
  intros Hp Hc Hd Hj Hl Hjl. destruct fu as [|fu]; [lia|]. rewrite p_pred_S.
  rewrite operand_q by exact I. cbn [p_op].
  match goal with |- context [eat "LIKE" (?a :: ?r)] => change (eat "LIKE" (a :: r)) with (@None (list tok)) end.
  match goal with |- context [eat "IS" (?a :: ?r)] => change (eat "IS" (a :: r)) with (@None (list tok)) end.
  match goal with |- context [eat "IN" (?a :: ?r)] => change (eat "IN" (a :: r)) with (Some r) end.
  cbn iota.
  match goal with |- context [eat "SELECT" (?a :: ?r)] => change (eat "SELECT" (a :: r)) with (Some r) end.
  cbn iota. rewrite Hd. cbn iota. rewrite Hc by exact I.
  match goal with |- context [eat "FROM" (?a :: ?r)] => change (eat "FROM" (a :: r)) with (Some r) end.
  cbn iota. rewrite p_name_q. rewrite p_joins_q by assumption.
  match goal with |- context [eat "WHERE" (?a :: ?r)] => change (eat "WHERE" (a :: r)) with (Some r) end.
  cbn iota. rewrite Hp; [reflexivity|exact I|split; reflexivity|lia].
Qed.

Lemma kcol_not_distinct c r : column_ok d c -> eat "DISTINCT" (kcol kw c ++ r) = None.
Proof.
  unfold column_ok, kcol. destruct (col_table c); cbn [List.app].
  - intros _. apply core_eat_q. corew.
  - intros [_ R]. apply core_eat; [corew|assumption].
Qed.

Lemma sub_sem E D V k a x scope f0 c c2 t js tt :
  reads k a x -> engine_ok E -> carries V k (bound_values a) ->
  obind2 (lookup (None, c) [f0]) (fun y =>
      obind2 (join_frames E D [] js (base_frames D t)) (fun fs =>
      obind2 (select_frames (fun f' => means E D f' a) fs) (fun sel =>
      obind2 (all_some (map (fun f' => lookup c2 [f']) sel)) (fun vs =>
        Some (in3 E y vs))))) = Some tt ->
  sval E D V (f0 :: scope) (SInSelect (SCol (None, c)) false c2 t js x) = Some (of_tv tt).
Proof.
  intros Hr K C M. cbn [sval]. unfold obind2 in M.
  destruct (lookup (None, c) [f0]) as [y|] eqn:E1; [|discriminate].
  rewrite (lookup_outer _ _ scope _ E1). cbn [obind2].
  destruct (join_frames E D [] js (base_frames D t)) as [fs|] eqn:E2; [|discriminate].
  rewrite (join_frames_outer E D (f0 :: scope) js _ _ E2). cbn [obind2].
  destruct (select_frames (fun f' => means E D f' a) fs) as [sel|] eqn:E3; [|discriminate].
  rewrite (select_frames_ext (fun f' => means E D f' a)
    (fun f => obind2 (sval E D V (f :: f0 :: scope) x) to_tv) fs sel); [|clear - Hr K C|assumption].
  2: { intros f t M. rewrite (Hr E D V (f0 :: scope) f t K C M). cbn. apply to_of_tv. }
  cbn [obind2].
  destruct (all_some (map (fun f' => lookup c2 [f']) sel)) as [vs|] eqn:E4; [|discriminate].
  rewrite (all_some_ext (fun f' => lookup c2 [f']) (fun f => lookup c2 (f :: f0 :: scope)) sel vs);
    [|intros; now apply lookup_outer|assumption].
  cbn [obind2]. congruence.
Qed.

Lemma subquery_atom k c t tc a :
  identifier c = true -> identifier t = true -> identifier tc = true ->
  P_or k a -> P_not k (BSubquery c t tc a).
Proof.
  intros Hc Ht Htc Ha. apply P_or_parse in Ha as (x & Hp & Hr).
  exists (SInSelect (SCol (None, c)) false (None, tc) t [] x). split.
  - intros fu rest Hf _ Hl. cbn [TokProofs.toks List.length] in Hl. rewrite app_length in Hl.
    destruct fu as [|[|fu]]; [lia|lia|]. cbn [TokProofs.toks List.app]. rewrite p_not_S.
    rewrite core_eat_q by corew. rewrite <- app_assoc.
    apply (subselect_pred k a x c (None, tc) [qtok kw tc] t [] (fu) rest); auto.
    + intros r Hn. apply p_colref_name; [apply p_name_q|assumption].
    + intros r. apply core_eat_q. corew.
    + lia.
    + cbn. lia.
  - intros E D V scope f tt K C M. apply (sub_sem E D V k a x); auto.
Qed.

Lemma subjoin_atom k c t c2 js a :
  identifier c = true -> identifier t = true -> column_ok d c2 -> List.length js <= 1 ->
  Forall (fun j => identifier (join_table j) = true
                          /\ column_ok d (join_col1 j) /\ column_ok d (join_col2 j)) js ->
  P_or k a -> P_not k (BSubqueryJoin c t c2 js a).
Proof.
  intros Hc Ht Hc2 Hl1 Hjs Ha. apply P_or_parse in Ha as (x & Hp & Hr).
  exists (SInSelect (SCol (None, c)) false (colref_of c2) t (joins_of js) x). split.
  - intros fu rest Hf _ Hl. cbn [TokProofs.toks List.length] in Hl. rewrite !app_length in Hl.
    cbn [List.length] in Hl. rewrite !app_length in Hl. cbn [List.length] in Hl. rewrite !app_length in Hl.
    destruct fu as [|[|fu]]; [lia|lia|]. cbn [TokProofs.toks List.app]. rewrite p_not_S.
    rewrite core_eat_q by corew.
    rewrite <- ?app_assoc. cbn [List.app]. rewrite <- ?app_assoc. cbn [List.app]. rewrite <- ?app_assoc.
    apply (subselect_pred k a x c (colref_of c2) (kcol kw c2) t js (fu) rest); auto.
    + intros r Hn. now apply p_colref_col.
    + intros r. now apply kcol_not_distinct.
    + lia.
    + lia.
  - intros E D V scope f tt K C M. apply (sub_sem E D V k a x); auto.
Qed.

(** ** Connectives *)

Lemma vph_bound v : vph v = List.length (bound v).
Proof. reflexivity. Qed.
Lemma nvals_bound vs : nvals vs = List.length (flat_map bound vs).
Proof. induction vs as [|v vs IH]; cbn; [reflexivity|]. rewrite app_length, IH. reflexivity. Qed.

(** As many placeholders as bound values. *)
Lemma nph_bound e : supported d e -> nph e = List.length (bound_values e).
Proof.
  assert (X : forall x, operand_ok x -> nphop x = List.length (boundop x))
    by (intros [| | |]; cbn; intros; try reflexivity; contradiction).
  induction e as [|c x H|c x H|c x H|c x H|c x H|c x H|c x H|l H|a b Ha Hb|a b Ha Hb|a Ha|c t tc a Ha|c vs|c t c2 js a Ha]
    using filter_ind; cbn [supported]; intros S; auto.
  - destruct S as [_ S]. apply X in S. destruct x as [|[]| |]; auto.
  - destruct S as [_ S]. apply X in S. destruct x as [|[]| |]; auto.
  - destruct S as [_ S]. apply X in S. exact S.
  - destruct S as [_ S]. apply X in S. exact S.
  - destruct S as [_ S]. apply X in S. exact S.
  - destruct S as [_ S]. apply X in S. exact S.
  - destruct S as [_ S]. apply X in S. exact S.
  - apply all_forall in S. cbn [nph bound_values].
    induction l as [|x l IH]; [reflexivity|]. inversion H; inversion S; subst.
    cbn [fold_right flat_map]. rewrite app_length. rewrite H2 by assumption. now rewrite IH.
  - cbn [nph bound_values]. rewrite app_length. destruct S. now rewrite Ha, Hb.
  - cbn [nph bound_values]. rewrite app_length. destruct S. now rewrite Ha, Hb.
  - apply Ha, S.
  - apply nvals_bound.
  - apply Ha, S.
Qed.

Lemma carries_and V k a b : supported d a -> carries V k (bound_values a ++ bound_values b) ->
  carries V k (bound_values a) /\ carries V (k + nph a) (bound_values b).
Proof.
  intros S C. split; [eapply carries_l; eassumption|]. apply carries_r in C.
  now rewrite nph_bound.
Qed.

Lemma truths_app E D V scope a b x y :
  truths E D V scope a = Some x -> truths E D V scope b = Some y ->
  truths E D V scope (a ++ b) = Some (x ++ y).
Proof. unfold truths. rewrite map_app. apply all_some_app. Qed.

Lemma and_step k a b : supported d a -> P_and k a -> P_and (k + nph a) b -> P_and k (BAnd a b).
Proof.
  intros S (sa & Na & Ta & Fa & Ra) (sb & Nb & Tb & Fb & Rb). exists (sa ++ sb).
  split; [destruct sa; cbn; congruence|]. split.
  - rewrite map_app, glue_app by now apply map_ne. cbn [TokProofs.toks]. now rewrite Ta, Tb.
  - split; [apply Forall_app; auto|]. intros E D V scope f t K C M. cbn [means bound_values] in *.
    unfold obind2 in M. destruct (means E D f a) as [ta|] eqn:Ea; [|discriminate].
    destruct (means E D f b) as [tb|] eqn:Eb; [|discriminate]. injection M as <-.
    destruct (carries_and _ _ _ _ S C) as [Ca Cb].
    destruct (Ra E D V scope f ta K Ca Ea) as (xs & Hx & <-).
    destruct (Rb E D V scope f tb K Cb Eb) as (ys & Hy & <-).
    exists (xs ++ ys). rewrite map_app. split; [now apply truths_app|apply and_all_app].
Qed.
Lemma or_step k a b : supported d a -> P_or k a -> P_or (k + nph a) b -> P_or k (BOr a b).
Proof.
  intros S (sa & Na & Ta & Fa & Ra) (sb & Nb & Tb & Fb & Rb). exists (sa ++ sb).
  split; [destruct sa; cbn; congruence|]. split.
  - rewrite map_app, glue_app by now apply map_ne. cbn [TokProofs.toks]. now rewrite Ta, Tb.
  - split; [apply Forall_app; auto|]. intros E D V scope f t K C M. cbn [means bound_values] in *.
    unfold obind2 in M. destruct (means E D f a) as [ta|] eqn:Ea; [|discriminate].
    destruct (means E D f b) as [tb|] eqn:Eb; [|discriminate]. injection M as <-.
    destruct (carries_and _ _ _ _ S C) as [Ca Cb].
    destruct (Ra E D V scope f ta K Ca Ea) as (xs & Hx & <-).
    destruct (Rb E D V scope f tb K Cb Eb) as (ys & Hy & <-).
    exists (xs ++ ys). rewrite map_app. split; [now apply truths_app|apply or_all_app].
Qed.

Lemma all_single_means E D f x t : means E D f (BAllOf [x]) = Some t -> means E D f x = Some t.
Proof.
  cbn [means map all_some]. destruct (means E D f x) as [tx|]; [|discriminate]. cbn.
  intros [= <-]. now rewrite and3_true_r.
Qed.

Definition P_at (p : spot) (k : nat) (e : BoolExpr) : Prop :=
  match p with Anywhere => P_or k e | BesideAnd => P_and k e | BehindNot => P_not k e end.
Lemma not_at p k e : P_not k e -> P_at p k e.
Proof. destruct p; cbn; auto using not_and, and_or. Qed.
Lemma and_at p k e : p <> BehindNot -> P_and k e -> P_at p k e.
Proof. destruct p; cbn; auto using and_or. congruence. Qed.

Lemma at_single p k x : P_at p k x -> P_at p k (BAllOf [x]).
Proof.
  assert (B : forall V, carries V k (bound_values (BAllOf [x])) -> carries V k (bound_values x)).
  { intros V C. cbn in C. now rewrite app_nil_r in C. }
  destruct p; cbn [P_at].
  - intros (s & N & T & F & R). exists s. split; [assumption|]. split; [assumption|]. split; [assumption|].
    intros E D V scope f t K C M. apply (R E D V scope f t K); auto. now apply all_single_means.
  - intros (s & N & T & F & R). exists s. split; [assumption|]. split; [assumption|]. split; [assumption|].
    intros E D V scope f t K C M. apply (R E D V scope f t K); auto. now apply all_single_means.
  - intros (s & F & R). exists s. split; [assumption|].
    intros E D V scope f t K C M. apply (R E D V scope f t K); auto. now apply all_single_means.
Qed.

(** A conjunction of several is the conjunction of the first and the rest. *)
Lemma all_cons_and k x y l : supported d x -> P_and k x -> P_and (k + nph x) (BAllOf (y :: l)) ->
  P_and k (BAllOf (x :: y :: l)).
Proof.
  intros S Hx Hl. destruct (and_step k x (BAllOf (y :: l)) S Hx Hl) as (s & N & T & F & R).
  exists s. split; [assumption|]. split; [exact T|]. split; [assumption|].
  intros E D V scope f t K C M. apply (R E D V scope f t K); [exact C|].
  change (option_map and_all (all_some (means E D f x :: map (means E D f) (y :: l))) = Some t) in M.
  change (obind2 (means E D f x) (fun a =>
    obind2 (option_map and_all (all_some (map (means E D f) (y :: l)))) (fun b => Some (and3 a b))) = Some t).
  set (A := map (means E D f) (y :: l)) in *.
  destruct (means E D f x) as [tx|]; [|discriminate M]. cbn [all_some obind2] in *.
  destruct (all_some A) as [ts|]; [|discriminate M]. exact M.
Qed.

Theorem cond_parses e : forall p k, bracket_free p e -> supported d e -> P_at p k e.
Proof.
  induction e as [|c x H|c x H|c x H|c x H|c x H|c x H|c x H|l H|a b Ha Hb|a b Ha Hb|a Ha|c t tc a Ha|c vs|c t c2 js a Ha]
    using filter_ind; intros p k B S.
  - apply not_at, true_atom.
  - apply not_at. destruct S as [Sc Sx].
    assert (X : x <> EVal VNull -> P_not k (BEq c x)).
    { intros N. apply (cmp_atom_op k _ c x CEq); auto; destruct x as [|[]| |]; try reflexivity; congruence. }
    destruct x as [|[]| |]; try (apply X; congruence).
    apply (null_atom k _ c false); auto.
  - apply not_at. destruct S as [Sc Sx].
    assert (X : x <> EVal VNull -> P_not k (BNe c x)).
    { intros N. apply (cmp_atom_op k _ c x CNe); auto; destruct x as [|[]| |]; try reflexivity; congruence. }
    destruct x as [|[]| |]; try (apply X; congruence).
    apply (null_atom k _ c true); auto.
  - apply not_at. destruct S as [Sc Sx]. apply (cmp_atom_op k _ c x CLt); auto.
  - apply not_at. destruct S as [Sc Sx]. apply (cmp_atom_op k _ c x CGt); auto.
  - apply not_at. destruct S as [Sc Sx]. apply (cmp_atom_op k _ c x CLe); auto.
  - apply not_at. destruct S as [Sc Sx]. apply (cmp_atom_op k _ c x CGe); auto.
  - apply not_at. destruct S as [Sc Sx]. now apply like_atom.
  - cbn [supported] in S. rewrite all_forall in S.
    destruct l as [|x [|y l]]; cbn [bracket_free] in B; [contradiction| |].
    + inversion H; inversion S; subst. apply at_single. auto.
    + destruct B as [Bp B].
      change (fold_right (fun x acc => bracket_free BesideAnd x /\ acc) True (x :: y :: l)) in B.
      rewrite all_forall in B. apply and_at; [assumption|]. clear Bp p.
      revert k x H S B. induction l as [|z l IH]; intros k x H S B.
      * inversion H as [|? ? Hx H']; subst. inversion H' as [|? ? Hy _]; subst.
        inversion S as [|? ? Sx S']; subst. inversion S' as [|? ? Sy _]; subst.
        inversion B as [|? ? Bx B']; subst. inversion B' as [|? ? By _]; subst.
        apply all_cons_and; [assumption|exact (Hx BesideAnd k Bx Sx)|].
        apply (at_single BesideAnd). exact (Hy BesideAnd _ By Sy).
      * inversion H as [|? ? Hx H']; subst. inversion S as [|? ? Sx S']; subst. inversion B as [|? ? Bx B']; subst.
        apply all_cons_and; [assumption|exact (Hx BesideAnd k Bx Sx)|].
        (* the rest, with y as first element *)
        clear IH. clear H S B Hx Sx Bx. revert H' S' B'. generalize (k + nph x). clear x k.
        revert y. induction (z :: l) as [|u m IHm]; intros y k H S B.
        { inversion H; inversion S; inversion B; subst. apply (at_single BesideAnd). now apply (H2 BesideAnd). }
        inversion H as [|? ? Hx H']; subst. inversion S as [|? ? Sx S']; subst. inversion B as [|? ? Bx B']; subst.
        apply all_cons_and; [assumption|exact (Hx BesideAnd k Bx Sx)|]. now apply IHm.
  - cbn [bracket_free supported] in *. destruct B as (Bp & Ba & Bb), S as [Sa Sb].
    apply and_at; [assumption|]. apply and_step; [assumption|now apply (Ha BesideAnd)|now apply (Hb BesideAnd)].
  - cbn [bracket_free supported] in *. destruct B as (-> & Ba & Bb), S as [Sa Sb].
    apply or_step; [assumption|now apply (Ha Anywhere)|now apply (Hb Anywhere)].
  - apply not_at, not_step. now apply (Ha BehindNot).
  - cbn [bracket_free supported] in *. destruct S as (? & ? & ? & ?).
    apply not_at, subquery_atom; auto. now apply (Ha Anywhere).
  - destruct S as [? ?]. apply not_at. now apply in_atom.
  - cbn [bracket_free supported] in *. destruct S as (? & ? & ? & ? & ? & ?).
    apply not_at, subjoin_atom; auto. now apply (Ha Anywhere).
Qed.
End Parse.
