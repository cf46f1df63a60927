(** * When a key may be unsealed

    A secret is recovered from the seed; the ciphertext and the sealing policy
    carry an HMAC under a key derived from that secret; every value of the
    policy is either empty (zero) or is the current PCR, padded with zeros in
    front. *)
From Coq Require Import List NArith.
From Verif Require Import Base Unseal_Model Unseal_Spec AuxAtt_Model.
Import ListNotations.
Local Open Scope nat_scope.

Section SPEC.
Variable decrypt : bool -> list N -> N + list N.
Variable ecdh : bool -> list N -> N + list N.
Variable kdf : list N -> list N -> N * list N.
Variable hmac : list N -> list N -> N + list N.
Variable pcrs : nat -> option (nat * (N + list N)).

(** Ways to the secret. *)
Inductive recovered (seed : list N) : N -> N -> list N -> Prop :=
| rsa_sha1 : forall s, decrypt false seed = inr s -> recovered seed 0 1 s
| rsa_sha256 : forall s, decrypt true seed = inr s -> recovered seed 0 2 s
| ecdh_raw : forall s, ecdh false seed = inr s -> recovered seed 1 0 s
| ecdh_sha256 : forall s, ecdh true seed = inr s -> recovered seed 1 1 s.

(** A value of the policy allows the PCR. *)
Definition allows (i : nat) (row : list N) : Prop :=
  row = repeat 0%N 64 \/
  exists n v, pcrs i = Some (n, inr v) /\ row = repeat 0%N (64 - n) ++ v.

Definition may_unseal (seed : list N) (seed_type seed_param : N) (given_hmac ciphertext : list N)
  (sealing : list (list N)) (k : list N) : Prop :=
  exists secret signing,
    recovered seed seed_type seed_param secret /\
    kdf secret [115; 105; 103; 110; 105; 110; 103; 32; 107; 101; 121]%N = (0%N, signing) /\
    hmac signing (ciphertext ++ concat sealing) = inr given_hmac /\
    (forall i row, nth_error sealing i = Some row -> allows i row) /\
    kdf secret [101; 110; 99; 114; 121; 112; 116; 105; 111; 110; 32; 107; 101; 121]%N = (0%N, k).
End SPEC.
