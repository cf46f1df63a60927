(** Counting. *)
From Coq Require Import List NArith Bool Arith.
From Verif Require Import Base Counter_Model.
Import ListNotations.
Local Open Scope N_scope.

(** The counters there are: resets of Cerberus (any port), and of the components at
    port 0, and 1 if there is a second register. *)
Inductive counter := OfCerberus | OfComponent0 | OfComponent1.
Definition names (second : bool) (type port : N) : option counter :=
  match type, port with
  | 0, _ => Some OfCerberus
  | 1, 0 => Some OfComponent0
  | 1, 1 => if second then Some OfComponent1 else None
  | _, _ => None
  end.
Definition same (a b : counter) : bool :=
  match a, b with OfCerberus, OfCerberus | OfComponent0, OfComponent0 | OfComponent1, OfComponent1 => true | _, _ => false end.
Definition is (c : option counter) (k : counter) : bool := match c with Some c => same c k | None => false end.

(** The number of increments of [k] since it was last cleared, or since it was [v]. *)
Fixpoint tally (second : bool) (k : counter) (v : N) (l : list op) : N :=
  match l with
  | [] => v
  | Clear t p :: l => tally second k (if is (names second t p) k then 0 else v) l
  | Increment t p :: l => tally second k (if is (names second t p) k then v + 1 else v) l
  end.
