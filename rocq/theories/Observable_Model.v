(** Model of core/common/observable.c, at the level of its list entries.

    List entries are two maps from the address of an entry to its fields; [taken] is the set of entries
    that are allocated and not yet freed.  platform_malloc is an argument of the call: the address it
    returns, 0 for failure.  Walking the list takes fuel, and following a pointer to an entry that is not
    allocated is a separate outcome.  The lock serialises the calls (a plain mutex: a callback that adds
    or removes observers deadlocks), so each call is one step. *)
From Coq Require Import List NArith Bool Arith.
From Verif Require Import Base.
Import ListNotations.
Local Open Scope N_scope.

Record obs := Obs { who : N -> N; nxt : N -> N; head : N; taken : list N }.

Definition at_put (f : N -> N) (a v : N) : N -> N := fun x => if x =? a then v else f x.
Definition is_taken (s : obs) (a : N) : bool := existsb (N.eqb a) (taken s).
Definition give_back (a : N) (l : list N) : list N := filter (fun x => negb (x =? a)) l.

Inductive ores := Done (s : obs) | InvalidArgument | NoMemory | BadAccess.

(** observable.c:17-33 *)
Definition obs_init : obs := Obs (fun _ => 0) (fun _ => 0) 0 [].

(** observable.c:94-107: walk to the end, or stop at an entry for the same observer. *)
Inductive scan := Dup | End (prev : N) | ScanBad.
Fixpoint scan_add (n : nat) (s : obs) (pos prev observer : N) : scan :=
  match n with
  | O => ScanBad
  | S n' =>
    if pos =? 0 then End prev
    else if negb (is_taken s pos) then ScanBad
    else if observer =? who s pos then Dup
    else scan_add n' s (nxt s pos) pos observer
  end.

(** observable.c:70-113 *)
Definition add_observer (s : obs) (malloc observer : N) : ores :=
  if observer =? 0 then InvalidArgument
  else if malloc =? 0 then NoMemory
  else
    let s1 := Obs (at_put (who s) malloc observer) (at_put (nxt s) malloc 0) (head s) (malloc :: taken s) in
    if head s1 =? 0 then Done (Obs (who s1) (nxt s1) malloc (taken s1))
    else
      match scan_add (S (length (taken s1))) s1 (head s1) 0 observer with
      | ScanBad => BadAccess
      | Dup => Done (Obs (who s1) (nxt s1) (head s1) (give_back malloc (taken s1)))
      | End prev => if is_taken s1 prev then Done (Obs (who s1) (at_put (nxt s1) prev malloc) (head s1) (taken s1)) else BadAccess
      end.

(** observable.c:134-151 *)
Fixpoint scan_remove (n : nat) (s : obs) (pos prev observer : N) : ores :=
  match n with
  | O => BadAccess
  | S n' =>
    if pos =? 0 then Done s
    else if negb (is_taken s pos) then BadAccess
    else if who s pos =? observer then
      if prev =? 0 then Done (Obs (who s) (nxt s) (nxt s pos) (give_back pos (taken s)))
      else Done (Obs (who s) (at_put (nxt s) prev (nxt s pos)) (head s) (give_back pos (taken s)))
    else scan_remove n' s (nxt s pos) pos observer
  end.

(** observable.c:123-156 *)
Definition remove_observer (s : obs) (observer : N) : ores :=
  if observer =? 0 then InvalidArgument
  else scan_remove (S (length (taken s))) s (head s) 0 observer.

(** observable.c:167-189: the observers called, in order; [handler] says whether the observer has a
    handler (a non-NULL pointer at the callback offset). *)
Fixpoint walk_notify (n : nat) (s : obs) (handler : N -> bool) (pos : N) : option (list N) :=
  match n with
  | O => None
  | S n' =>
    if pos =? 0 then Some []
    else if negb (is_taken s pos) then None
    else
      match walk_notify n' s handler (nxt s pos) with
      | None => None
      | Some t => Some (if handler (who s pos) then who s pos :: t else t)
      end
  end.

(** observable.c:200-223 *)
Definition notify_observers (s : obs) (handler : N -> bool) : option (list N) :=
  walk_notify (S (length (taken s))) s handler (head s).

(** observable.c:40-52 *)
Fixpoint release (n : nat) (s : obs) : option obs :=
  match n with
  | O => None
  | S n' =>
    if head s =? 0 then Some s
    else if negb (is_taken s (head s)) then None
    else release n' (Obs (who s) (nxt s) (nxt s (head s)) (give_back (head s) (taken s)))
  end.
