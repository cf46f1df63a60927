(** Payloads that ask for the preparation of an update. *)
From Coq Require Import List NArith Bool Arith.
From Verif Require Import Base PrepUpdate_Model.
Import ListNotations.
Local Open Scope nat_scope.

(** The marker, an image length in four bytes (lowest first), the type of hash and a
    digest of its length. *)
Inductive asks : list N -> N -> hash -> list N -> Prop :=
| Asks : forall b0 b1 b2 b3 t h digest,
    (t, h, length digest) = (0%N, Sha256, 32) \/ (t, h, length digest) = (1%N, Sha384, 48) \/ (t, h, length digest) = (2%N, Sha512, 64) ->
    asks ([80; 85; 87; 70; b0; b1; b2; b3; t]%N ++ digest) (b0 + 256 * b1 + 65536 * b2 + 16777216 * b3)%N h digest.
