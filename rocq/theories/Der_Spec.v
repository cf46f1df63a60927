(** What X.690, SEC 1, RFC 5480 and RFC 3279 say about the encodings, independently of the code. *)
From Coq Require Import List NArith Bool Arith.
From Verif Require Import Base.
Import ListNotations.

(** X.690, 10.1: the length of contents below 256 bytes in DER *)
Definition len_octets (n : nat) : list N := if n <? 128 then [N.of_nat n] else [0x81%N; N.of_nat n].

(** An item in DER, with contents below 256 bytes *)
Definition tlv (tag : N) (content : list N) : list N := tag :: len_octets (length content) ++ content.

(** X.690, 8.1.3: a definite length in any form *)
Definition length_field (n : N) (f : list N) : Prop :=
  ((n < 128)%N /\ f = [n]) \/
  (exists bs, 1 <= length bs <= 126 /\ bytes_ok bs /\ be_value bs = n /\ f = (128 + N.of_nat (length bs))%N :: bs).

(** An item in BER, with a length field of at most five bytes, as for anything of less than four gigabytes *)
Definition item (tag : N) (content e : list N) : Prop :=
  exists f, length_field (N.of_nat (length content)) f /\ length f <= 5 /\ e = tag :: f ++ content.

(** X.690, 8.3: the contents of an integer that is not negative, in DER: big endian, with a sign bit that is zero, and with no more
    bytes than are needed *)
Definition der_integer (v : N) (c : list N) : Prop :=
  bytes_ok c /\ be_value c = v /\
  exists b t, c = b :: t /\ (b < 128)%N /\ (b = 0%N -> match t with [] => True | b2 :: _ => (128 <= b2)%N end).

(** X.690, 8.19: object identifiers from their numbers *)
Fixpoint base128 (fuel : nat) (last : bool) (n : N) : list N :=
  match fuel with
  | O => []
  | S fuel => (if (n <? 128)%N then [] else base128 fuel false (n / 128)) ++ [(n mod 128 + if last then 0 else 128)%N]
  end.
Definition oid_of (arcs : list N) : list N :=
  match arcs with a :: b :: t => concat (map (base128 10 true) ((a * 40 + b)%N :: t)) | _ => [] end.

(** RFC 5480: the curves of the supported key lengths, and the algorithm *)
Definition curve (k : nat) (oid : list N) : Prop :=
  k = 32 /\ oid = oid_of [1; 2; 840; 10045; 3; 1; 7]%N \/
  k = 48 /\ oid = oid_of [1; 3; 132; 0; 34]%N \/
  k = 66 /\ oid = oid_of [1; 3; 132; 0; 35]%N.
Definition ec_public_key : list N := oid_of [1; 2; 840; 10045; 2; 1]%N.

(** RFC 3279: a signature *)
Definition signature_der (r s : N) (e : list N) : Prop :=
  exists cr cs, der_integer r cr /\ der_integer s cs /\ e = tlv 0x30 (tlv 2 cr ++ tlv 2 cs).

(** RFC 5480: a public key, not compressed *)
Definition public_key_der (oid x y : list N) : list N :=
  tlv 0x30 (tlv 0x30 (tlv 6 ec_public_key ++ tlv 6 oid) ++ tlv 3 (0 :: 4 :: x ++ y)%N).

(** SEC 1, C.4: a private key, with or without the public key *)
Definition private_key_der (oid d : list N) (pub : option (list N * list N)) : list N :=
  tlv 0x30 (tlv 2 [1%N] ++ tlv 4 d ++ tlv 0xa0 (tlv 6 oid) ++
            match pub with Some (x, y) => tlv 0xa1 (tlv 3 (0 :: 4 :: x ++ y)%N) | None => [] end).

(** What a decoder of keys looks at: the headers of the items that others are in, with any lengths. *)
Definition short_header (tag : N) (h : list N) : Prop := exists n, h = [tag; n] /\ (n < 128)%N \/ h = [tag; 0x81%N; n].
(** An item with a length in one byte of any form *)
Definition short_item (tag : N) (content e : list N) : Prop :=
  exists h, e = h ++ content /\
  (h = [tag; N.of_nat (length content)] /\ length content < 128 \/ h = [tag; 0x81%N; N.of_nat (length content)]).
