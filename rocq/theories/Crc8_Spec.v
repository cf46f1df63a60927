(** Specification of the SMBus PEC: the remainder of the message, times x^8, divided by
    x^8 + x^2 + x + 1 over GF(2).  Polynomials over GF(2) are numbers: bit i is the coefficient of
    x^i, addition is [N.lxor], multiplication by x^k is [N.shiftl _ k]. *)
From Coq Require Import List NArith Bool Arith.
From Verif Require Import Base.
Import ListNotations.

(** q * (x^8 + x^2 + x + 1) *)
Definition times_poly (q : N) : N :=
  N.lxor (N.shiftl q 8) (N.lxor (N.shiftl q 2) (N.lxor (N.shiftl q 1) q)).

(** [r] is the remainder of [m * x^8]. *)
Definition is_crc_remainder (m r : N) : Prop :=
  (r < 256)%N /\ exists q, N.shiftl m 8 = N.lxor (times_poly q) r.

(** Two 16-bit words (two adjacent bytes) differ in a non-empty burst of at most eight bits. *)
Definition burst8 (x y x' y' : N) : Prop :=
  exists e k, (0 < e < 256)%N /\ (k <= 8)%N /\
    N.lxor (x * 256 + y) (x' * 256 + y') = N.shiftl e k.
