(** What a byte of a memory device of a size holds after operations. *)
From Coq Require Import List NArith Bool Arith.
From Verif Require Import Base VirtualFlash_Model.
Import ListNotations.
Local Open Scope nat_scope.

(** A range that is within the device. *)
Definition within (size address len : nat) : Prop := address < size /\ address + len <= size.

(** The byte at [x] goes from [v] to [w]. *)
Inductive changes (size x : nat) (v : N) : op -> N -> Prop :=
| Ch_written : forall a d, within size a (length d) -> a <= x < a + length d -> changes size x v (Write a d) (nth (x - a) d 0%N)
| Ch_other : forall a d, ~ (within size a (length d) /\ a <= x < a + length d) -> changes size x v (Write a d) v
| Ch_erased : forall a, a < size -> a / 256 = x / 256 -> changes size x v (Erase a) 255%N
| Ch_kept : forall a, ~ (a < size /\ a / 256 = x / 256) -> changes size x v (Erase a) v
| Ch_all : changes size x v ChipErase 255%N.

Inductive history (size x : nat) : N -> list op -> N -> Prop :=
| H_none : forall v, history size x v [] v
| H_step : forall v w u o l, changes size x v o w -> history size x w l u -> history size x v (o :: l) u.
