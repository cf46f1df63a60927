(** What an IDE_KM responder answers to a query, and the key a request names. *)
From Coq Require Import List NArith Bool Arith.
From Verif Require Import Base Ide_Model.
Import ListNotations.
Local Open Scope nat_scope.

(** A request has the bytes: id, two reserved, stream, reserved, sub-stream info,
    port, as in the IDE specification: bit 0 is the key set, bit 1 the direction,
    bits 4 to 7 the sub-stream. *)
Definition names (b : list N) (k : key_id) : Prop :=
  exists r1 r2 r3 reserved rest,
    b = nth 0 b 0%N :: r1 :: r2 :: k_stream k :: r3 ::
        (k_set k + 2 * k_rx_tx k + 4 * reserved + 16 * k_sub k)%N :: k_port k :: rest /\
    (k_set k < 2 /\ k_rx_tx k < 2 /\ reserved < 4)%N.

(** Blocks [i], [i + 1], ... that the driver has, [n] of them. *)
Fixpoint blocks (f : nat -> N + list N) (i n : nat) : option (list (list N)) :=
  match n with
  | O => Some []
  | S n => match f i, blocks f (S i) n with inr x, Some l => Some (x :: l) | _, _ => None end
  end.

(** A selective block without the address blocks it does not have. *)
Definition used (x : list N) : list N := firstn (20 + 12 * N.to_nat (nth 0 x 0 mod 16)%N) x.
