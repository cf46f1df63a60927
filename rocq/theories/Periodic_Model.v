(** * Model of the periodic task

    core/system/periodic_task.c:15-90: preparing all handlers, and choosing and
    running the next one.

    Modelled: both functions, with missing handlers and missing prepare functions.

    External: the time a handler wants to run next, and what is left until then or a
    failure to tell (platform_get_timeout_remaining).

    Simplified: execute and prepare are recorded by the position of their handler.  The list is
    not null. *)
From Coq Require Import List NArith Bool Arith.
From Verif Require Import Base.
Import ListNotations.
Local Open Scope nat_scope.

(** struct periodic_task_handler: whether it has a prepare function, and the time
    left until it wants to run: [None] if it gives no time (it is ready), or an
    error of the platform. *)
Record handler := Handler { has_prepare : bool; remaining : option (N + N) }.

(** periodic_task_prepare_handlers (periodic_task.c:15-27): the positions, from [i] on, of the
    handlers prepared *)
Fixpoint prepare (hs : list (option handler)) (i : nat) : list nat :=
  match hs with
  | [] => []
  | Some h :: hs => (if has_prepare h then [i] else []) ++ prepare hs (S i)
  | None :: hs => prepare hs (S i)
  end.

(** The outcome: an error; or [Ran s i]: the handler at [i] is run, after sleeping
    [s] milliseconds if there is such a call. *)
Inductive result := InvalidArgument | NoHandlers | Failed (e : N) | Ran (sleep : option N) (i : nat).

Definition MAX : N := 4294967295.

(** The loop (periodic_task.c:56-77): the handler chosen so far and its time, or
    an error *)
Fixpoint choose (hs : list (option handler)) (i : nat) (next : option nat) (wait : N) : N + (option nat * N) :=
  match hs with
  | [] => inr (next, wait)
  | None :: hs => choose hs (S i) next wait
  | Some h :: hs =>
      match remaining h with
      | Some (inl e) => inl e
      | Some (inr w) => if (w <? wait)%N then choose hs (S i) (Some i) w else choose hs (S i) next wait
      | None => if negb (wait =? 0)%N then choose hs (S i) (Some i) 0%N else choose hs (S i) next wait
      end
  end.

(** periodic_task_execute_next_handler (periodic_task.c:44-90) *)
Definition execute_next (hs : list (option handler)) : result :=
  match hs with
  | [] => InvalidArgument
  | _ =>
      match choose hs 0 None MAX with
      | inl e => Failed e
      | inr (None, _) => NoHandlers
      | inr (Some i, w) => Ran (if negb (w =? 0)%N then Some w else None) i
      end
  end.
