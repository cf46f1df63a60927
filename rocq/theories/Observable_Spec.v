(** What a user of an observable object relies on. *)
From Coq Require Import List NArith Bool Arith.
From Verif Require Import Base Observable_Model.
Import ListNotations.
Local Open Scope N_scope.

(** A history of calls.  [Add o true] is an add call for which memory was available. *)
Inductive ocall := Add (o : N) (memory : bool) | Remove (o : N).

(** Whether [o] is registered after a history: decided by the last call about it that had an effect. *)
Fixpoint registered (o : N) (rev_history : list ocall) : Prop :=
  match rev_history with
  | [] => False
  | Add o' m :: t => (o' = o /\ o <> 0 /\ m = true) \/ registered o t
  | Remove o' :: t => o' <> o /\ registered o t
  end.

(** The observers in the order in which they were (last) registered, oldest first. *)
Definition order_step (l : list N) (c : ocall) : list N :=
  match c with
  | Add o m => if (o =? 0) || negb m || existsb (N.eqb o) l then l else l ++ [o]
  | Remove o => filter (fun x => negb (x =? o)) l
  end.

(** One call, with the allocator choosing any unused address for the new entry. *)
Inductive ostep : obs -> ocall -> obs -> Prop :=
| SAdd s o a s' : a <> 0 -> ~ In a (taken s) -> add_observer s a o = Done s' -> ostep s (Add o true) s'
| SAddInvalid s a : ~ In a (taken s) -> add_observer s a 0 = InvalidArgument -> ostep s (Add 0 true) s
| SAddFail s o : (add_observer s 0 o = NoMemory \/ add_observer s 0 o = InvalidArgument) -> ostep s (Add o false) s
| SRemove s o s' : remove_observer s o = Done s' -> ostep s (Remove o) s'
| SRemoveInvalid s : remove_observer s 0 = InvalidArgument -> ostep s (Remove 0) s.

Inductive oruns : list ocall -> obs -> Prop :=
| ORStart : oruns [] obs_init
| ORStep h s c s' : oruns h s -> ostep s c s' -> oruns (h ++ [c]) s'.
