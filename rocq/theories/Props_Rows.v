(** C42: iterating over a result. *)
From Verif Require Import Base SqlVal Backend Rows RowsSpec RowsProofs.

(** ** Buffered results (PostgreSQL, Turso and every async adapter) *)

(** Whatever calls are made, the calls of [next] return each row exactly once, in
    order, and then report the end for ever. *)
Theorem C42_buffered_each_once (T : Type) (rows : list T) (calls : list rcall) :
  visits rows (nexts (observe (vec_cursor T) (vr_new rows) calls)).
Proof. apply vec_visits. Qed.

Example C42_buffered_case :
  observe (vec_cursor nat) (vr_new [7; 8]%nat) [Next; Current; Next; Next; Current; Next] =
  [GotNext (Ok (Some 7%nat)); GotCurrent (Some 8%nat); GotNext (Ok (Some 8%nat)); GotNext (Ok None);
   GotCurrent None; GotNext (Ok None)].
Proof. reflexivity. Qed.

(** [current] does not return the row most recently returned by [next] ... *)
Theorem C42_buffered_current_refuted :
  exists (rows : list nat) calls, ~ current_is_last (observe (vec_cursor nat) (vr_new rows) calls).
Proof.
  exists [7]%nat, [Next; Current]. intros H.
  specialize (H [GotNext (Ok (Some 7%nat))] None [] eq_refl). discriminate.
Qed.

(** ... but always the one after it. *)
Theorem C42_buffered_current_is_following (T : Type) (rows : list T) (calls : list rcall) :
  current_is_following (observe (vec_cursor T) (vr_new rows) calls).
Proof. apply vec_following. Qed.

(** So it agrees with the most recent row only when that row is also the next one:
    before the first call of [next] it already returns the first row. *)
Theorem C42_buffered_current_before_first (T : Type) (x : T) (rows : list T) :
  observe (vec_cursor T) (vr_new (x :: rows)) [Current] = [GotCurrent (Some x)].
Proof. reflexivity. Qed.

(** ** SQLite results *)

Theorem C42_sqlite_each_once (T : Type) (rows : list T) (calls : list rcall) :
  visits rows (nexts (observe (sqlite_cursor T) (sr_new (map SRow rows)) calls)).
Proof. apply sqlite_visits. Qed.

(** A failure while stepping is reported once, after the rows before it. *)
Theorem C42_sqlite_failure (T : Type) (rows : list T) (e : error) rest (calls : list rcall) :
  visits_until rows e (nexts (observe (sqlite_cursor T) (sr_new (map SRow rows ++ SFail e :: rest)) calls)).
Proof. apply sqlite_fails. Qed.

(** Here [current] does return the row most recently returned by [next]. *)
Theorem C42_sqlite_current (T : Type) (steps : list (sstep T)) (calls : list rcall) :
  current_is_last (observe (sqlite_cursor T) (sr_new steps) calls).
Proof. apply sqlite_current. Qed.

Example C42_sqlite_case :
  observe (sqlite_cursor nat) (sr_new [SRow 7%nat; SRow 8%nat]) [Current; Next; Current; Next; Current; Next; Current] =
  [GotCurrent None; GotNext (Ok (Some 7%nat)); GotCurrent (Some 7%nat); GotNext (Ok (Some 8%nat)); GotCurrent (Some 8%nat);
   GotNext (Ok None); GotCurrent None].
Proof. reflexivity. Qed.

(** ** Loading *)

(** Loading objects from a result applies the conversion to every row, in order,
    and returns the converted rows, or the first failure. *)
Theorem C42_load_buffered (T B : Type) (f : T -> outcome B) (rows : list T) (fuel : nat) :
  List.length rows < fuel ->
  exists o, collect fuel (vec_cursor T) f (vr_new rows) = Some o /\ mapped_to f rows o.
Proof. intros H. exact (vec_collect f rows [] fuel H). Qed.

Theorem C42_load_sqlite (T B : Type) (f : T -> outcome B) (rows : list T) (fuel : nat) :
  List.length rows < fuel ->
  exists o, collect fuel (sqlite_cursor T) f (sr_new (map SRow rows)) = Some o /\ mapped_to f rows o.
Proof. intros H. exact (sqlite_collect f rows None fuel H). Qed.

(** A failing step makes the load fail, whatever rows came before. *)
Theorem C42_load_sqlite_failure (T B : Type) (f : T -> outcome B) (rows : list T) ys e rest (fuel : nat) :
  Forall2 (fun x y => f x = Ok y) rows ys -> List.length rows < fuel ->
  collect fuel (sqlite_cursor T) f (sr_new (map SRow rows ++ SFail e :: rest)) = Some (Err e).
Proof. intros F H. exact (sqlite_collect_fails f rows e rest None ys F fuel H). Qed.

(** There is one such result. *)
Theorem C42_load_unique (R B : Type) (f : R -> outcome B) rows o o' :
  mapped_to f rows o -> mapped_to f rows o' -> o = o'.
Proof. apply mapped_det. Qed.

(** Loading the first object looks at the first row only. *)
Theorem C42_load_first (T B : Type) (f : T -> outcome B) (rows : list T) :
  first (vec_cursor T) f (vr_new rows) = match rows with [] => Ok None | x :: _ => omap Some (f x) end /\
  first (sqlite_cursor T) f (sr_new (map SRow rows)) = match rows with [] => Ok None | x :: _ => omap Some (f x) end.
Proof. destruct rows; split; reflexivity. Qed.

Example C42_load_case :
  collect 3 (vec_cursor nat) (fun n => if Nat.eqb n 9 then Err NoSuchObject else Ok (n + 1)) (vr_new [7; 8]%nat) = Some (Ok [8; 9]%nat) /\
  collect 4 (vec_cursor nat) (fun n => if Nat.eqb n 9 then Err NoSuchObject else Ok (n + 1)) (vr_new [7; 9; 8]%nat) = Some (Err NoSuchObject).
Proof. split; reflexivity. Qed.

(** ** Rows copied by an async adapter *)

(** Copying a row succeeds exactly if it has as many cells as columns were asked
    for and every cell can be read with its column's type; the copy holds the
    values read. *)
Theorem C42_copy (r : brow) (tys : list SqlType) (vs : list SqlVal) :
  vecrow_new r tys = Ok vs <->
  br_len r = List.length tys /\ List.length vs = List.length tys /\
  forall j ty, nth_error tys j = Some ty -> exists v, nth_error vs j = Some v /\ br_get r j ty = Ok v.
Proof. apply vecrow_new_iff. Qed.

(** Reading the copy with the columns' types gives what reading the row gives. *)
Theorem C42_copy_alike (r : brow) (tys : list SqlType) (vs : list SqlVal) :
  typed_row r -> vecrow_new r tys = Ok vs -> reads_alike tys r (vecrow vs).
Proof. apply vecrow_alike. Qed.

(** Loading through an async adapter over SQLite gives what loading from SQLite
    directly gives, for every conversion that reads a row with the types of the
    queried columns, provided all cells can be read with these types. *)
Theorem C42_adapter_same (B : Type) (parse_json : string -> option string) (f : brow -> outcome B)
    (tys : list SqlType) (rows : list (list lvalue)) (fuel : nat) buffered :
  looks_at tys f -> List.length rows < fuel ->
  buffer fuel (sqlite_cursor brow) tys (sr_new (map SRow (map (sqlite_row parse_json) rows))) = Some (Ok buffered) ->
  collect fuel buffered_cursor f buffered =
  collect fuel (sqlite_cursor brow) f (sr_new (map SRow (map (sqlite_row parse_json) rows))).
Proof.
  intros Lf Hf Hb. set (rs := map (sqlite_row parse_json) rows) in *.
  assert (List.length rs < fuel) as Hl by (subst rs; rewrite map_length; assumption).
  destruct (sqlite_collect (fun r => vecrow_new r tys) rs None fuel Hl) as (o & Ho & Hm).
  unfold buffer, sr_new in Hb. rewrite Ho in Hb. cbn [option_map] in Hb. injection Hb as Hb.
  destruct o as [vss|e|]; try discriminate. cbn in Hb. injection Hb as <-.
  inversion Hm as [q ys F| |]; subst.
  assert (Forall2 (reads_alike tys) rs (map vecrow vss)) as Fa.
  { assert (Forall typed_row rs) as Ft.
    { subst rs. apply Forall_forall. intros r Hr. apply in_map_iff in Hr as (c & <- & _). apply sqlite_row_typed. }
    clear -F Ft. induction F as [|r vs rs vss E F IH]; constructor; inversion Ft; subst; auto.
    apply vecrow_alike; assumption. }
  assert (List.length vss < fuel) as Hv.
  { assert (List.length rs = List.length vss) as <- by (clear -F; induction F; cbn; congruence). assumption. }
  destruct (buffered_collect f vss [] fuel Hv) as (o & Eo & Mo).
  destruct (sqlite_collect f rs None fuel Hl) as (o' & Eo' & Mo').
  unfold vr_new. cbn [app List.length] in Eo. rewrite Eo. unfold sr_new. rewrite Eo'. f_equal.
  eapply mapped_det; [|exact Mo']. eapply mapped_alike; eassumption.
Qed.

Example C42_adapter_case :
  let f := fun r => do a <- br_get r 0 TInt ; do b <- br_get r 1 TText ; Ok (a, b) in
  let rows := [[LInteger 5%Z; LText "x"]; [LNull; LText "y"]] in
  looks_at [TInt; TText] f /\
  exists buffered,
    buffer 3 (sqlite_cursor brow) [TInt; TText] (sr_new (map SRow (map (sqlite_row (fun s => Some s)) rows))) = Some (Ok buffered) /\
    collect 3 buffered_cursor f buffered = Some (Ok [(VInt 5, VText "x"); (VNull, VText "y")]).
Proof.
  cbn zeta. split.
  - intros r s [_ H]. rewrite (H 0 TInt eq_refl), (H 1 TText eq_refl). reflexivity.
  - eexists. split; reflexivity.
Qed.

Print Assumptions C42_buffered_each_once.
Print Assumptions C42_buffered_current_refuted.
Print Assumptions C42_buffered_current_is_following.
Print Assumptions C42_buffered_current_before_first.
Print Assumptions C42_sqlite_each_once.
Print Assumptions C42_sqlite_failure.
Print Assumptions C42_sqlite_current.
Print Assumptions C42_load_buffered.
Print Assumptions C42_load_sqlite.
Print Assumptions C42_load_sqlite_failure.
Print Assumptions C42_load_unique.
Print Assumptions C42_load_first.
Print Assumptions C42_copy.
Print Assumptions C42_copy_alike.
Print Assumptions C42_adapter_same.
