(** When handlers want to run. *)
From Coq Require Import List NArith Bool Arith.
From Verif Require Import Base Periodic_Model.
Import ListNotations.
Local Open Scope nat_scope.

(** The handler at position [i] wants to run in [w] milliseconds; a handler that gives no
    time wants to run now. *)
Definition due (hs : list (option handler)) (i : nat) (w : N) : Prop :=
  exists h, nth_error hs i = Some (Some h) /\ match remaining h with None => w = 0%N | Some (inr x) => w = x | Some (inl _) => False end.

(** The handler at position [i] cannot tell. *)
Definition broken (hs : list (option handler)) (i : nat) (e : N) : Prop :=
  exists h, nth_error hs i = Some (Some h) /\ remaining h = Some (inl e).

(** Handlers with absolute times at time [now] on a platform whose clock works;
    [None] for a handler that is always ready. *)
Definition at_time (now : N) (times : list (option N)) : list (option handler) :=
  map (fun t => Some (Handler false (match t with None => None | Some t => Some (inr (t - now)%N) end))) times.
