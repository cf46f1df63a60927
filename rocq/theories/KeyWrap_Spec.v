(** RFC 3394 and RFC 5649, written down from the standards (indexing R[1]..R[n], t = n*j + i). *)
From Coq Require Import List NArith Bool Arith.
From Verif Require Import Base KeyWrap_Model.
Import ListNotations.
Local Open Scope nat_scope.

(** R[i], and R[i] := b, in the concatenation of the 64-bit registers. *)
Definition reg (i : nat) (r : list N) : list N := window (8 * (i - 1)) 8 r.
Definition set_reg (i : nat) (b r : list N) : list N := splice r (8 * (i - 1)) b.

(** The steps of the wrapping process in order: (t, i) for j = 0..5, i = 1..n. *)
Definition rfc_steps (n : nat) : list (nat * nat) :=
  flat_map (fun j => map (fun i => (n * j + i, i)) (seq 1 n)) (seq 0 6).

Section Cipher.
Variable enc dec : list N -> option (list N).

(** B = AES(K, A | R[i]);  A = MSB(64, B) ^ t;  R[i] = LSB(64, B). *)
Definition rfc_wrap_step (s : option (list N * list N)) (ti : nat * nat) : option (list N * list N) :=
  match s with
  | None => None
  | Some (a, r) =>
    match enc (a ++ reg (snd ti) r) with
    | None => None
    | Some b => Some (xor_bytes (firstn 8 b) (be_bytes 8 (N.of_nat (fst ti))), set_reg (snd ti) (skipn 8 b) r)
    end
  end.

(** B = AES-1(K, (A ^ t) | R[i]);  A = MSB(64, B);  R[i] = LSB(64, B). *)
Definition rfc_unwrap_step (s : option (list N * list N)) (ti : nat * nat) : option (list N * list N) :=
  match s with
  | None => None
  | Some (a, r) =>
    match dec (xor_bytes a (be_bytes 8 (N.of_nat (fst ti))) ++ reg (snd ti) r) with
    | None => None
    | Some b => Some (firstn 8 b, set_reg (snd ti) (skipn 8 b) r)
    end
  end.

Definition rfc_wrap (iv p : list N) : option (list N * list N) :=
  fold_left rfc_wrap_step (rfc_steps (length p / 8)) (Some (iv, p)).

Definition rfc_unwrap (c0 c : list N) : option (list N * list N) :=
  fold_left rfc_unwrap_step (rev (rfc_steps (length c / 8))) (Some (c0, c)).

(** RFC 5649, section 4.1: the padded plaintext and the alternative initial value. *)
Definition padded (p : list N) : list N := p ++ repeat 0%N ((8 - length p mod 8) mod 8).
Definition alternative_iv (p : list N) : list N := [0xA6; 0x59; 0x59; 0xA6]%N ++ be_bytes 4 (N.of_nat (length p)).

Definition rfc5649_wrap (p : list N) : option (list N) :=
  if length (padded p) =? 8 then enc (alternative_iv p ++ padded p)
  else match rfc_wrap (alternative_iv p) (padded p) with Some (a, r) => Some (a ++ r) | None => None end.
End Cipher.

(** A block cipher: 16 bytes to 16 bytes, decryption inverting encryption and the other way round.
    The engine may refuse, but not a block it produced itself. *)
Record block_cipher (enc dec : list N -> option (list N)) : Prop := {
  bc_enc : forall b c, length b = 16 -> bytes_ok b -> enc b = Some c -> length c = 16 /\ bytes_ok c /\ dec c = Some b;
  bc_dec : forall c b, length c = 16 -> bytes_ok c -> dec c = Some b -> length b = 16 /\ bytes_ok b /\ enc b = Some c
}.

Definition zeros (n : nat) : list N := repeat 0%N n.
