(** Specification of the async adapter. *)
From Verif Require Import Base Adapter.

Section Spec.
Context {D A R : Type}.
Variable run : nat -> A -> D -> option (R * D).
Variable begin : nat -> nat -> D -> option (option R * D).
Variable free : nat -> D -> option D.

(** What a command does: a call and a drop act on the context they are for, a transaction
    is started on its connection and known by the number of the command. *)
Inductive does : cmd A -> D -> reply R -> D -> Prop :=
| does_call n ctx a d r d' : run ctx a d = Some (r, d') -> does (Func n ctx (OCall a)) d (Answer r) d'
| does_begin n ctx d d' : begin ctx n d = Some (None, d') -> does (Func n ctx OBegin) d NewCtx d'
| does_refuse n ctx d r d' : begin ctx n d = Some (Some r, d') -> does (Func n ctx OBegin) d (Answer r) d'
| does_free n ctx d d' : free ctx d = Some d' -> does (Func n ctx OFree) d Freed d'
| does_stop d : does Shutdown d Bye d.
(** Commands executed one after the other, with their answers and the state they
    leave behind. *)
Inductive sequentially : D -> list (cmd A) -> list (reply R) -> D -> Prop :=
| seq_none d : sequentially d [] [] d
| seq_next d c rep d1 cs reps d2 :
    does c d rep d1 -> sequentially d1 cs reps d2 ->
    sequentially d (c :: cs) (rep :: reps) d2.

(** [c] is in [l] after all of [pre]. *)
Definition follows (l pre : list (cmd A)) (c : cmd A) : Prop := exists post, l = pre ++ c :: post.
Definition id_of (c : cmd A) : option nat := match c with Func n _ _ => Some n | Shutdown => None end.
(** The command that drops a context. *)
Definition frees (a : nat) (c : cmd A) : Prop := exists n, c = Func n a OFree.
(** The command uses a context. *)
Definition uses (a : nat) (c : cmd A) : Prop := exists n o, c = Func n a o.
(** How often a list drops a context. *)
Definition frees_b (a : nat) (c : cmd A) : bool :=
  match c with Func _ x OFree => Nat.eqb x a | _ => false end.
Definition times_freed (a : nat) (l : list (cmd A)) : nat := length (filter (frees_b a) l).

(** Steps the worker makes, with no help from clients. *)
Inductive worker_step : state D A R -> state D A R -> Prop :=
| ws_take s n a o q : s_worker s = Idle -> s_queue s = Func n a o :: q ->
    worker_step s (with_worker (Busy (Func n a o)) q s)
| ws_stop s q : s_worker s = Idle -> s_queue s = Shutdown :: q ->
    worker_step s (finished Shutdown Bye (s_db s) Stopped [] s)
| ws_done s c rep d : s_worker s = Busy c -> exec run begin free c (s_db s) = Some (rep, d) ->
    worker_step s (finished c rep d Idle (s_queue s) s)
| ws_die s c : s_worker s = Busy c -> exec run begin free c (s_db s) = None ->
    worker_step s (with_worker Died [] s).
Inductive worker_steps : state D A R -> state D A R -> Prop :=
| wss_none s : worker_steps s s
| wss_next s s1 s2 : worker_step s s1 -> worker_steps s1 s2 -> worker_steps s s2.

(** The client waiting for command [n] can go on: its answer is there, or the channel
    tells it that there will be none. *)
Definition answered (n : nat) (s : state D A R) : Prop :=
  (exists rep, In (n, rep) (s_replies s)) \/ s_worker s = Died.
End Spec.
