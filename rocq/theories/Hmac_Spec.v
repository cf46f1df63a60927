(** What the key derivation standards say: RFC 2104 (HMAC), NIST SP 800-108 (KDF in counter mode with 32-bit counter and length) and
    RFC 5869 (HKDF), for a digest [h] that has [len] bytes and blocks of [blk] bytes. *)
From Coq Require Import List NArith Bool Arith.
From Verif Require Import Base Hmac_Model.
Import ListNotations.

(** Digest and block sizes of the SHA family in bytes (FIPS 180-4). *)
Definition digest_bytes (t : htype) : nat := match t with SHA1 => 20 | SHA256 => 32 | SHA384 => 48 | SHA512 => 64 | Other => 0 end.
Definition block_bytes (t : htype) : nat := match t with SHA1 | SHA256 => 64 | SHA384 | SHA512 => 128 | Other => 0 end.

(** The bytes behind a pointer. *)
Definition bytes (p : ptr) : list N := match p with Null _ => [] | Mem d => d end.

Section Standards.
Variables (h : list N -> list N) (blk : nat).

(** RFC 2104, section 2: (1) to (7). *)
Definition hmac_key (key : list N) : list N :=
  let k := if blk <? length key then h key else key in k ++ repeat 0%N (blk - length k).
Definition hmac_of (key text : list N) : list N :=
  let k := hmac_key key in h (map (N.lxor 0x5c) k ++ h (map (N.lxor 0x36) k ++ text)).

(** A 32-bit number, the most significant byte first. *)
Definition int32 (x : N) : list N := map (fun k => (x / 256 ^ k) mod 256)%N [3; 2; 1; 0]%N.

(** SP 800-108, section 5.1: the first [n] bytes of K(1) || K(2) || ... *)
Definition counter_kdf (key label context : list N) (n : nat) : list N :=
  firstn n (concat (map (fun i => hmac_of key (int32 (N.of_nat i) ++ label ++ [0%N] ++ context ++ int32 (N.of_nat (8 * n)))) (seq 1 n))).

(** RFC 5869, section 2.3: T(i), and the first [n] bytes of T(1) || T(2) || ... *)
Fixpoint hkdf_t (prk info : list N) (i : nat) : list N :=
  match i with O => [] | S j => hmac_of prk (hkdf_t prk info j ++ info ++ [N.of_nat i]) end.
Definition hkdf_of (prk info : list N) (n : nat) : list N := firstn n (concat (map (hkdf_t prk info) (seq 1 n))).
End Standards.

(** HKDF as it is used: the pseudorandom key that there is, if there is one, and its hash. *)
Section History.
Variable H : htype -> list N -> list N.

Definition mac (t : htype) : list N -> list N -> list N := hmac_of (H t) (block_bytes t).

(** What each answer means for the pseudorandom key. *)
Definition next_prk (prk : option (htype * list N)) (o : op) (r : reply) : option (htype * list N) :=
  match o, r with
  | Extract t ikm salt, Done => Some (t, mac t (bytes salt) (bytes ikm))
  | Extract _ _ _, Error => None
  | UpdatePrk info _, Done =>
    match prk with Some (t, k) => Some (t, hkdf_of (H t) (block_bytes t) k (bytes info) (digest_bytes t)) | None => None end
  | Clear, Done => None
  | _, _ => prk
  end.

(** The answers that are right when [prk] is the pseudorandom key. *)
Definition answer_ok (prk : option (htype * list N)) (o : op) (r : reply) : Prop :=
  match o, r with
  | Extract _ _ _, (Done | Error) => True
  | Extract _ ikm _, Refused => bytes ikm = []
  | Expand info out, Key k =>
    match prk with Some (t, p) => k = hkdf_of (H t) (block_bytes t) p (bytes info) (length out) | None => False end
  | Expand _ _, Error => prk <> None
  | Expand _ _, Refused => prk = None
  | UpdatePrk _ _, (Done | Error) => prk <> None
  | UpdatePrk _ _, Refused => prk = None
  | Clear, Done => True
  | _, _ => False
  end.

Fixpoint answers_ok (prk : option (htype * list N)) (l : list op) (r : list reply) : Prop :=
  match l, r with
  | [], [] => True
  | o :: l, a :: r => answer_ok prk o a /\ answers_ok (next_prk prk o a) l r
  | _, _ => False
  end.
End History.
