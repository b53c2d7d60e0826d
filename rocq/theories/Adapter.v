(** The adapter that gives a synchronous connection an async interface.
    Models db/adapter.rs: the worker thread (24-43), sending a call and waiting for its
    answer (49-141), shutting down (144-156), dropping an adapter (277-288), starting a
    transaction (372-385) and the blocking calls (387-421), as a transition system whose
    runs are all the schedules of clients and worker.

    Simplifications: the system starts when [AsyncAdapter::new] has succeeded, with one
    adapter for context 0; what a command does to the connections is given by functions
    of the contents of all of them; [commit] and [rollback] may run beside other calls on
    the same transaction, although their [&mut self] forbids it. *)
From Verif Require Import Base.

Section Adapter.
(** State behind the contexts, calls and their answers. *)
Context {D A R : Type}.
(** A call on a context; [None] when it panics. *)
Variable run : nat -> A -> D -> option (R * D).
(** Starting a transaction on a context, to be known under the given number; an answer
    when it is refused. *)
Variable begin : nat -> nat -> D -> option (option R * D).
(** Dropping the boxed connection or transaction. *)
Variable free : nat -> D -> option D.

(** What a command asks for: a method of the context (adapter.rs:49-120), a transaction
    (373-380), dropping the context (281-285). *)
Inductive op := OCall (a : A) | OBegin | OFree.
(** adapter.rs:13-16; every closure is known by a number. *)
Inductive cmd := Func (id ctx : nat) (o : op) | Shutdown.
(** What the worker sends back: an answer, the pointer to a new context, the end of a
    drop.  ([Bye] only marks the end of the loop.) *)
Inductive reply := Answer (r : R) | NewCtx | Freed | Bye.

(** Running a command on the worker thread. *)
Definition exec (c : cmd) (d : D) : option (reply * D) :=
  match c with
  | Func n ctx (OCall a) => match run ctx a d with Some (r, d') => Some (Answer r, d') | None => None end
  | Func n ctx OBegin =>
      match begin ctx n d with
      | Some (None, d') => Some (NewCtx, d')
      | Some (Some r, d') => Some (Answer r, d')
      | None => None
      end
  | Func n ctx OFree => match free ctx d with Some d' => Some (Freed, d') | None => None end
  | Shutdown => Some (Bye, d)
  end.

Inductive wk := Idle | Busy (c : cmd) | Stopped | Died.
(** How a client waits: for a call's future, for a blocking call, for a transaction, for
    the end of a drop. *)
Inductive wkind := WCall | WBlocking | WBegin | WDrop.

Record state := {
  s_next : nat;                            (* number of the next command *)
  s_queue : list cmd;                      (* the channel *)
  s_worker : wk;
  s_db : D;
  s_replies : list (nat * reply);          (* sent back and not yet received *)
  s_wait : list (nat * nat * wkind);       (* clients: command, adapter, kind *)
  s_adapters : list (nat * option nat);    (* adapters: context, connection it came from *)
  s_results : list (nat * option reply);   (* what clients got; [None] is a channel error *)
  s_panicked : bool;                       (* a client panicked *)
  (* history *)
  s_sent : list cmd;
  s_done : list (cmd * reply);
  s_gone : list nat                        (* commands whose future was dropped *)
}.

(** adapter.rs:25-43 and 255-275: after [new]. *)
Definition init (d : D) : state :=
  {| s_next := 1; s_queue := []; s_worker := Idle; s_db := d; s_replies := []; s_wait := [];
     s_adapters := [(0, None)]; s_results := []; s_panicked := false; s_sent := []; s_done := []; s_gone := [] |}.

Definition alive (s : state) : Prop := match s_worker s with Idle | Busy _ => True | _ => False end.

(** Sending a command (adapter.rs:122-141). *)
Definition post (c : cmd) (s : state) : state :=
  {| s_next := s_next s; s_queue := s_queue s ++ [c]; s_worker := s_worker s; s_db := s_db s;
     s_replies := s_replies s; s_wait := s_wait s; s_adapters := s_adapters s;
     s_results := s_results s; s_panicked := s_panicked s;
     s_sent := s_sent s ++ [c]; s_done := s_done s; s_gone := s_gone s |}.
(** Sending one and waiting. *)
Definition post_and_wait (a : nat) (o : op) (k : wkind) (s : state) : state :=
  let n := s_next s in
  {| s_next := S n; s_queue := s_queue s ++ [Func n a o]; s_worker := s_worker s; s_db := s_db s;
     s_replies := s_replies s; s_wait := (n, a, k) :: s_wait s; s_adapters := s_adapters s;
     s_results := s_results s; s_panicked := s_panicked s;
     s_sent := s_sent s ++ [Func n a o]; s_done := s_done s; s_gone := s_gone s |}.
(** The send fails because the worker is gone. *)
Definition not_sent (panics : bool) (s : state) : state :=
  {| s_next := S (s_next s); s_queue := s_queue s; s_worker := s_worker s; s_db := s_db s;
     s_replies := s_replies s; s_wait := s_wait s; s_adapters := s_adapters s;
     s_results := (s_next s, None) :: s_results s; s_panicked := s_panicked s || panics;
     s_sent := s_sent s; s_done := s_done s; s_gone := s_gone s |}.

Definition other (n : nat) {B} (x : nat * B) : bool := negb (Nat.eqb (fst x) n).
Definition without {B} (n : nat) (l : list (nat * B)) : list (nat * B) := filter (other n) l.
Definition no_wait (n : nat) (l : list (nat * nat * wkind)) : list (nat * nat * wkind) :=
  filter (fun x => negb (Nat.eqb (fst (fst x)) n)) l.
Definition waits (n : nat) (s : state) : bool := existsb (fun x => Nat.eqb (fst (fst x)) n) (s_wait s).

(** The client stops waiting, with this result if any. *)
Definition leave (n : nat) (r : option (option reply)) (panics : bool) (s : state) : state :=
  {| s_next := s_next s; s_queue := s_queue s; s_worker := s_worker s; s_db := s_db s;
     s_replies := without n (s_replies s); s_wait := no_wait n (s_wait s);
     s_adapters := s_adapters s;
     s_results := match r with Some x => (n, x) :: s_results s | None => s_results s end;
     s_panicked := s_panicked s || panics;
     s_sent := s_sent s; s_done := s_done s; s_gone := s_gone s |}.
Definition with_adapters (l : list (nat * option nat)) (s : state) : state :=
  {| s_next := s_next s; s_queue := s_queue s; s_worker := s_worker s; s_db := s_db s;
     s_replies := s_replies s; s_wait := s_wait s; s_adapters := l;
     s_results := s_results s; s_panicked := s_panicked s; s_sent := s_sent s; s_done := s_done s; s_gone := s_gone s |}.
Definition with_worker (w : wk) (q : list cmd) (s : state) : state :=
  {| s_next := s_next s; s_queue := q; s_worker := w; s_db := s_db s;
     s_replies := s_replies s; s_wait := s_wait s; s_adapters := s_adapters s;
     s_results := s_results s; s_panicked := s_panicked s; s_sent := s_sent s; s_done := s_done s; s_gone := s_gone s |}.
Definition panic_here (s : state) : state :=
  {| s_next := s_next s; s_queue := s_queue s; s_worker := s_worker s; s_db := s_db s;
     s_replies := s_replies s; s_wait := s_wait s; s_adapters := s_adapters s;
     s_results := s_results s; s_panicked := true; s_sent := s_sent s; s_done := s_done s; s_gone := s_gone s |}.
Definition mark_gone (n : nat) (s : state) : state :=
  {| s_next := s_next s; s_queue := s_queue s; s_worker := s_worker s; s_db := s_db s;
     s_replies := s_replies s; s_wait := s_wait s; s_adapters := s_adapters s;
     s_results := s_results s; s_panicked := s_panicked s; s_sent := s_sent s; s_done := s_done s;
     s_gone := n :: s_gone s |}.
(** A command has run: the answer goes to the client if it still waits. *)
Definition finished (c : cmd) (rep : reply) (d : D) (w : wk) (q : list cmd) (s : state) : state :=
  {| s_next := s_next s; s_queue := q; s_worker := w; s_db := d;
     s_replies := match c with
                  | Func n _ _ => if waits n s then (n, rep) :: s_replies s else s_replies s
                  | Shutdown => s_replies s
                  end;
     s_wait := s_wait s; s_adapters := s_adapters s;
     s_results := s_results s; s_panicked := s_panicked s;
     s_sent := s_sent s; s_done := s_done s ++ [(c, rep)]; s_gone := s_gone s |}.

(** What borrowing allows.  [&self]: the adapter is there, is not being dropped, and is
    not lent to a transaction.  [&mut self] and drop: moreover no call is waiting. *)
Definition child_of (a : nat) (s : state) : Prop := exists b, In (b, Some a) (s_adapters s).
Definition shareable (s : state) (a : nat) : Prop :=
  (exists p, In (a, p) (s_adapters s)) /\ ~ child_of a s /\
  (forall n k, In (n, a, k) (s_wait s) -> k = WCall \/ k = WBlocking).
Definition exclusive (s : state) (a : nat) : Prop :=
  (exists p, In (a, p) (s_adapters s)) /\ ~ child_of a s /\ (forall n k, ~ In (n, a, k) (s_wait s)).

(** Dropping the last adapter drops the environment, which sends [Shutdown]; a failing
    send is only logged (adapter.rs:144-156). *)
Definition drop_adapter (a : nat) (s : state) : state :=
  let s' := with_adapters (without a (s_adapters s)) s in
  match without a (s_adapters s), s_worker s with
  | [], Idle | [], Busy _ => post Shutdown s'
  | _, _ => s'
  end.

Inductive step : state -> state -> Prop :=
(* adapter.rs:49-79, 101-120 *)
| st_call s a x (blocking : bool) : alive s -> shareable s a ->
    step s (post_and_wait a (OCall x) (if blocking then WBlocking else WCall) s)
| st_call_dead s a (blocking : bool) : ~ alive s -> shareable s a -> step s (not_sent blocking s)
(* adapter.rs:372-380 *)
| st_begin s a : alive s -> exclusive s a -> In (a, None) (s_adapters s) ->
    step s (post_and_wait a OBegin WBegin s)
| st_begin_dead s a : ~ alive s -> exclusive s a -> In (a, None) (s_adapters s) -> step s (not_sent false s)
(* the worker: adapter.rs:29-38 *)
| st_take s n a o q : s_worker s = Idle -> s_queue s = Func n a o :: q ->
    step s (with_worker (Busy (Func n a o)) q s)
| st_stop s q : s_worker s = Idle -> s_queue s = Shutdown :: q ->
    step s (finished Shutdown Bye (s_db s) Stopped [] s)
| st_done s c rep d : s_worker s = Busy c -> exec c (s_db s) = Some (rep, d) ->
    step s (finished c rep d Idle (s_queue s) s)
| st_die s c : s_worker s = Busy c -> exec c (s_db s) = None -> step s (with_worker Died [] s)
(* the answer arrives: adapter.rs:78, 99, 119, 381-382 *)
| st_receive s n a k rep : In (n, a, k) (s_wait s) -> k <> WDrop -> In (n, rep) (s_replies s) ->
    step s (let s' := leave n (Some (Some rep)) false s in
            match rep with NewCtx => with_adapters ((n, Some a) :: s_adapters s) s' | _ => s' end)
(* the worker died and the answer will not come *)
| st_lost s n a k : In (n, a, k) (s_wait s) -> k <> WDrop -> s_worker s = Died ->
    (forall rep, ~ In (n, rep) (s_replies s)) ->
    step s (leave n (Some None) (match k with WBlocking => true | _ => false end) s)
(* the future is dropped before its end *)
| st_cancel s n a k : In (n, a, k) (s_wait s) -> k = WCall \/ k = WBegin ->
    step s (mark_gone n (leave n None false s))
(* dropping an adapter: adapter.rs:277-288 *)
| st_drop s a : alive s -> exclusive s a -> step s (post_and_wait a OFree WDrop s)
| st_drop_dead s a : ~ alive s -> exclusive s a -> step s (panic_here (drop_adapter a s))
| st_dropped s n a rep : In (n, a, WDrop) (s_wait s) -> In (n, rep) (s_replies s) ->
    step s (drop_adapter a (leave n None false s))
| st_drop_lost s n a : In (n, a, WDrop) (s_wait s) -> s_worker s = Died ->
    (forall rep, ~ In (n, rep) (s_replies s)) ->
    step s (drop_adapter a (leave n None true s)).

Inductive reachable (d : D) : state -> Prop :=
| re_init : reachable d (init d)
| re_step s s' : reachable d s -> step s s' -> reachable d s'.
End Adapter.
Arguments op : clear implicits.
Arguments cmd : clear implicits.
Arguments reply : clear implicits.
Arguments state : clear implicits.
