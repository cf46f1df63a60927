(** Vocabulary for the byte-array properties: an array seen as a bit sequence and as a number. *)
From Coq Require Import List NArith Bool Arith.
From Verif Require Import Base.
Import ListNotations.

(** Bit [i] of an array: byte [i/8], bit [i mod 8] counted from the least significant one. *)
Definition arr_bit (l : list N) (i : nat) : bool :=
  N.testbit (nth (i / 8) l 0%N) (N.of_nat (i mod 8)).

(** How many of the bits [0, n) satisfy [f]. *)
Definition count_bits (f : nat -> bool) (n : nat) : nat := length (filter f (seq 0 n)).

(** [k] is the length of the run of ones at the start of the first [n] bits of [f]. *)
Definition is_leading_run (f : nat -> bool) (n k : nat) : Prop :=
  k <= n /\ (forall i, i < k -> f i = true) /\ (k < n -> f k = false).
