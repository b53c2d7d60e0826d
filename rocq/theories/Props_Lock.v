(** C50: processes that record types at the same time (every process of a parallel
    compilation records the types it finds) do not lose each other's types. *)
From Coq Require Import Permutation.
From Verif Require Import Base SqlVal Adb Lock LockSpec LockProofs.

(** However the steps of any number of processes are interleaved, and whichever of them
    are killed wherever, there is an order in which they have recorded their types: each
    that was told it had recorded its type is in it; once nobody is under way the types
    on disk are those of that order, unless a process was killed and left the file
    empty; and a process fails only if another was killed.  The directory has to be
    there already, and nobody may remove it. *)
Theorem C50_no_type_lost : forall n ls jobs l d0 init T d st,
  (forall x, Permutation (ls x) x) -> (forall p, jobs p <> CleanUp) ->
  k_dir d0 = true -> types_are d0 init -> disk_ok d0 -> msorted T -> tables_are d0 T ->
  run n ls jobs l d0 = (d, st) ->
  exists order, NoDup order /\
    (forall p, In p order -> exists k t, jobs p = AddType k t) /\
    (forall p k t r, jobs p = AddType k t -> st p = Returned r ->
       (r = Ok Written /\ In p order) \/ (r = Err SerdeJson /\ some_killed st)) /\
    (quiet jobs st ->
       (forall p, In p order -> st p = Returned (Ok Written) \/ st p = Killed) /\
       (types_are d (types_after jobs order init) \/ (types_cut d /\ some_killed st))).
Proof.
  intros n ls jobs l d0 init T d st PL NC D Ty (_ & _ & So) ST Ta E.
  pose proof (inv_start n jobs init T d0 D Ty So Ta) as I0.
  destruct (inv_events n ls PL jobs NC init T ST _ _ l _ _ _ _ _ I0 E) as (order & I & _).
  exists order. split; [apply (i_nodup _ _ _ _ _ _ _ _ _ I)|]. split.
  - intros p Hp. apply (i_order _ _ _ _ _ _ _ _ _ I p Hp).
  - split.
    + intros p k t r Ej Es. pose proof (i_pc _ _ _ _ _ _ _ _ _ I p) as P. rewrite Es in P. cbn in P. unfold result in P. now rewrite Ej in P.
    + intros Q. split.
      * intros p Hp. destruct (i_order _ _ _ _ _ _ _ _ _ I p Hp) as [_ [[x C]|C]]; [|exact C]. specialize (Q p). rewrite C in Q.
        destruct Q as [Q|[]]; discriminate.
      * destruct (i_types _ _ _ _ _ _ _ _ _ I) as [A|[A B]]; [now left|right]. split; [exact A|]. destruct B as [B|(p & x & m & f & B)]; [exact B|].
        specialize (Q p). rewrite B in Q. destruct Q as [Q|[]]; discriminate.
Qed.

(** A process that reads the schema gets the types of some moment: those of a beginning
    of that order, which contains every type recorded before it started.  If nobody
    writes tables it gets the tables that are there, and it fails only if a process was
    killed or somebody writes tables. *)
Theorem C50_reader : forall n ls jobs l1 l2 d0 init T d1 st1 d st,
  (forall x, Permutation (ls x) x) -> (forall p, jobs p <> CleanUp) ->
  k_dir d0 = true -> types_are d0 init -> disk_ok d0 -> msorted T -> tables_are d0 T ->
  run n ls jobs l1 d0 = (d1, st1) -> run n ls jobs (l1 ++ l2) d0 = (d, st) ->
  forall p r, jobs p = ReadSchema -> st p = Returned r ->
  (exists ts tabs order, r = Ok (Schema ts tabs) /\ NoDup order /\ ts = types_after jobs order init /\
     (forall q, In q order -> (exists k t, jobs q = AddType k t) /\ (st q = Returned (Ok Written) \/ st q = Killed \/ exists x, st q = Leaving x (Ok Written))) /\
     (~ writes_tables n jobs -> tabs = T) /\
     (st1 p = Start ReadSchema -> forall q k t, jobs q = AddType k t -> st1 q = Returned (Ok Written) -> In q order)) \/
  (exists e, r = Err e /\ (some_killed st \/ writes_tables n jobs)).
Proof.
  intros n ls jobs l1 l2 d0 init T d1 st1 d st PL NC D Ty (_ & _ & So) ST Ta E1 E p r Ej Es.
  pose proof (inv_start n jobs init T d0 D Ty So Ta) as I0.
  destruct (inv_events n ls PL jobs NC init T ST _ _ l1 _ _ _ _ _ I0 E1) as (o1 & I1 & _).
  pose proof (inv_rebase n jobs init T _ _ _ _ _ I1) as I1'.
  unfold run in E, E1. rewrite fold_left_app, E1 in E.
  destruct (inv_events n ls PL jobs NC init T ST _ _ l2 _ _ _ _ _ I1' E) as (o2 & I & _).
  pose proof (i_pc _ _ _ _ _ _ _ _ _ I p) as P. rewrite Es in P. cbn in P. unfold result in P. rewrite Ej in P.
  destruct P as [(ts & tabs & a & b & -> & -> & -> & Tb & La)|P]; [left|right; exact P].
  exists (types_after jobs a init), tabs, a. split; [reflexivity|]. split; [apply (nodup_front _ b (i_nodup _ _ _ _ _ _ _ _ _ I))|].
  split; [reflexivity|]. split.
  - intros q Hq. destruct (i_order _ _ _ _ _ _ _ _ _ I q) as [A B]; [apply in_or_app; now left|]. split; [exact A|].
    destruct B as [[x B]|[B|B]]; eauto.
  - split; [exact Tb|]. intros S1 q k t Jq Sq. destruct La as [c ->]; [eauto|].
    apply in_or_app. left. pose proof (i_pc _ _ _ _ _ _ _ _ _ I1 q) as Q. rewrite Sq in Q. cbn in Q. unfold result in Q. rewrite Jq in Q.
    destruct Q as [[_ Q]|[Q _]]; [exact Q|discriminate].
Qed.

(** A process waits only for one that holds the lock and can go on, and from every state
    all processes can be brought to their end: there is no deadlock, whoever was killed
    and even while the directory is removed. *)
Theorem C50_no_deadlock : forall n ls jobs l d0 d st, run n ls jobs l d0 = (d, st) ->
  (forall p, p < n -> ~ ended (st p) -> pc_step n ls st p d = None ->
     exists q, q < n /\ q <> p /\ holds (st q) <> None /\ pc_step n ls st q d <> None) /\
  (exists l', forall p, p < n -> ended (snd (run n ls jobs (l ++ l') d0) p)).
Proof.
  intros n ls jobs l d0 d st E. split.
  - intros p Hp NE S0. destruct (blocked_waits _ _ _ _ _ NE S0) as (q & Q1 & Q2 & Q3). exists q.
    repeat split; auto. now apply holder_steps.
  - assert (F : forall q, n <= q -> holds (st q) = None).
    { intros q Hq. pose proof (far_start n ls jobs l d0 (fun p => Start (jobs p)) (fun _ _ => eq_refl) q Hq) as X.
      unfold run in E. unfold play in X. rewrite E in X. cbn in X. now rewrite X. }
    destruct (all_finish n ls _ d st F eq_refl) as (l' & H). exists l'. unfold run in *. unfold play in H. now rewrite fold_left_app, E.
Qed.

(** Two processes and a reader; the second waits for the first, then for the reader. *)
Definition c50_k0 : TypeKey := CustomType "a".
Definition c50_k1 : TypeKey := CustomType "b".
Definition c50_ty : DeferredSqlType := Known TText.
Definition c50_job0 : nat -> job :=
  fun p => match p with 0 => AddType c50_k0 c50_ty | 1 => AddType c50_k1 c50_ty | _ => ReadSchema end.
Definition c50_job1 : nat -> job :=
  fun p => match p with 0 => AddType c50_k0 c50_ty | 1 => AddType c50_k1 c50_ty | _ => CleanUp end.
Definition c50_tab : ATable := {| t_name := "t"; t_cols := [] |}.
Definition c50_job2 : nat -> job := fun p => match p with 0 => AddTable c50_tab | _ => ReadSchema end.
Definition c50_disk : disk := {| k_dir := true; k_lock := None; k_types := None; k_tables := []; k_next := 0 |}.
Definition c50_events : list event :=
  [Run 0; Run 1; Run 0; Run 1; Run 0; Run 0; Run 1; Run 0; Run 0; Run 0; Run 2; Run 2; Run 2; Run 1; Run 2; Run 2; Run 2;
   Run 2; Run 1; Run 1; Run 1; Run 1; Run 1; Run 1; Run 1].
Example C50_case :
  (forall p, c50_job0 p <> CleanUp) /\ k_dir c50_disk = true /\ types_are c50_disk [] /\ disk_ok c50_disk /\
  tables_are c50_disk [] /\
  (let '(d, st) := run 3 (fun x => x) c50_job0 c50_events c50_disk in
   types_are d [(c50_k0, c50_ty); (c50_k1, c50_ty)] /\ map st [0; 1; 2] =
     [Returned (Ok Written); Returned (Ok Written); Returned (Ok (Schema [(c50_k0, c50_ty)] []))]) /\
  pc_step 3 (fun x => x) (snd (run 3 (fun x => x) c50_job0 (firstn 4 c50_events) c50_disk)) 1 c50_disk = None.
Proof.
  split; [intros [|[|p]]; discriminate|]. split; [reflexivity|]. split; [reflexivity|]. split.
  { split; [|split]; try (intros; discriminate). apply msorted_nil. }
  split; [split; [reflexivity|intros; discriminate]|]. split; [vm_compute; auto|vm_compute; reflexivity].
Qed.

(** Cleaning a directory that is there leaves nothing of it; without one it fails and
    changes nothing. *)
Theorem C50_clean : forall n ls jobs p d, p < n -> jobs p = CleanUp ->
  exists d' st, run n ls jobs [Run p] d = (d', st) /\
    k_dir d' = false /\ (k_dir d = false -> d' = d) /\
    (k_dir d = true -> k_lock d' = None /\ k_types d' = None /\ k_tables d' = [] /\ k_next d' = k_next d) /\
    st p = Returned (if k_dir d then Ok Written else Err IOError).
Proof.
  intros n ls jobs p d Hp Ej. unfold run. cbn [fold_left happen]. rewrite (proj2 (Nat.ltb_lt p n) Hp). unfold pc_step. rewrite Ej.
  destruct (k_dir d) eqn:Ed; eexists; eexists; (split; [reflexivity|]); cbn; rewrite ?Ed; unfold upd; rewrite Nat.eqb_refl; repeat split; try reflexivity; try discriminate.
Qed.
Print Assumptions C50_clean.

(** FINDING: the first types recorded are not protected.  The lock file lies in the
    directory of the current schema; while that does not exist yet taking the lock fails,
    and the failure is not looked at (fsmigrations.rs:244 lacks a question mark).  Two
    processes that record the first types at the same time are both told that all went
    well, and the type of one of them is lost. *)
Theorem C50_first_type_lost_refuted :
  exists n jobs l d0 d st, k_dir d0 = false /\ (forall p, jobs p <> CleanUp) /\
    run n (fun x => x) jobs l d0 = (d, st) /\ n = 2 /\
    jobs 0 = AddType c50_k0 c50_ty /\ st 0 = Returned (Ok Written) /\ st 1 = Returned (Ok Written) /\
    types_are d [(c50_k1, c50_ty)].
Proof.
  exists 2, c50_job0, ([Run 0; Run 1; Run 0; Run 1] ++ repeat (Run 0) 5 ++ repeat (Run 1) 5),
    {| k_dir := false; k_lock := None; k_types := None; k_tables := []; k_next := 0 |}.
  eexists _, _. split; [reflexivity|]. split; [intros [|[|p]]; discriminate|]. split; [apply surjective_pairing|].
  vm_compute. auto 10.
Qed.

(** FINDING: removing the current schema removes the lock file too, while another process
    has it locked.  The next process makes a new file and locks that: two processes hold
    the exclusive lock at the same time, both record a type after the removal, and one
    type is lost although both are told that all went well. *)
Theorem C50_clean_breaks_lock_refuted :
  exists l1 l2 d0 st1 d st, k_dir d0 = true /\ disk_ok d0 /\
    snd (run 3 (fun x => x) c50_job1 l1 d0) = st1 /\
    (exists i j, holds (st1 0) = Some (i, true) /\ holds (st1 1) = Some (j, true)) /\ st1 2 = Returned (Ok Written) /\
    run 3 (fun x => x) c50_job1 (l1 ++ l2) d0 = (d, st) /\
    st 0 = Returned (Ok Written) /\ st 1 = Returned (Ok Written) /\ types_are d [(c50_k1, c50_ty)].
Proof.
  exists [Run 0; Run 0; Run 2; Run 0; Run 0; Run 1; Run 1; Run 1], (repeat (Run 0) 4 ++ repeat (Run 1) 6), c50_disk.
  eexists _, _, _. split; [reflexivity|]. split.
  { split; [|split]; try (intros; discriminate). apply msorted_nil. }
  split; [reflexivity|]. split; [vm_compute; eauto|]. split; [vm_compute; reflexivity|]. split; [apply surjective_pairing|].
  vm_compute. auto.
Qed.

(** FINDING: tables are written without the lock.  A reader, who holds it, can find the
    file of a table just emptied, and fails although nothing has gone wrong. *)
Theorem C50_torn_table_refuted :
  exists l d0 d st, k_dir d0 = true /\ disk_ok d0 /\ tables_are d0 [("t"%string, c50_tab)] /\
    run 2 (fun x => x) c50_job2 l d0 = (d, st) /\
    st 0 = Returned (Ok Written) /\ st 1 = Returned (Err SerdeJson).
Proof.
  exists [Run 0; Run 0; Run 1; Run 1; Run 1; Run 1; Run 1; Run 1; Run 1; Run 0],
    {| k_dir := true; k_lock := None; k_types := None; k_tables := [("t"%string, (0, Whole c50_tab))]; k_next := 1 |}.
  eexists _, _. split; [reflexivity|]. split.
  { split; [intros; discriminate|]. split; [intros; discriminate|]. apply (mput_sorted "t"%string _ [] msorted_nil). }
  split.
  { split; [reflexivity|]. intros n t. cbn [mget]. destruct (keqb n "t"%string) eqn:E; [|discriminate]. intros [= <-].
    destruct (keqb_spec n "t"%string); [|discriminate]. subst n. split; [reflexivity|]. exists 0. reflexivity. }
  split; [apply surjective_pairing|]. vm_compute. auto.
Qed.

(** FINDING: a process killed while it writes the types leaves an empty file, and
    whoever records a type or reads the schema afterwards fails: the file is written in
    place instead of being replaced. *)
Theorem C50_kill_breaks_later_refuted :
  exists l d0 d st, k_dir d0 = true /\ disk_ok d0 /\ types_are d0 [(c50_k0, c50_ty)] /\
    run 3 (fun x => x) c50_job0 l d0 = (d, st) /\ st 0 = Killed /\
    st 1 = Returned (Err SerdeJson) /\ st 2 = Returned (Err SerdeJson).
Proof.
  exists (repeat (Run 0) 5 ++ [Kill 0] ++ repeat (Run 1) 6 ++ repeat (Run 2) 8),
    {| k_dir := true; k_lock := None; k_types := Some (0, Whole [(c50_k0, c50_ty)]); k_tables := []; k_next := 1 |}.
  eexists _, _. split; [reflexivity|]. split.
  { split; [intros; discriminate|]. split; [intros f c [= <- _]; cbn; lia|]. apply msorted_nil. }
  split; [reflexivity|]. split; [apply surjective_pairing|]. vm_compute. auto.
Qed.

Print Assumptions C50_no_type_lost.
Print Assumptions C50_reader.
Print Assumptions C50_no_deadlock.
Print Assumptions C50_first_type_lost_refuted.
Print Assumptions C50_clean_breaks_lock_refuted.
Print Assumptions C50_torn_table_refuted.
Print Assumptions C50_kill_breaks_later_refuted.
