(** * Data objects of the DOE mailbox, as in the PCIe specification

    An object is a header of two dwords and a payload of whole dwords: the
    vendor (16 bits), the type, a reserved byte and the number of dwords of
    the whole object, where 2^18 is written as 0. *)
From Coq Require Import List NArith Lia Bool Arith.
From Verif Require Import Base.
Import ListNotations.
Local Open Scope nat_scope.

(** Little-endian numbers. *)
Definition bytes4 (x : N) : list N := [x mod 256; x / 256 mod 256; x / 65536 mod 256; x / 16777216 mod 256]%N.

(** [object vendor type reserved words body]: the bytes of an object of
    [words] dwords. *)
Definition object (vendor type reserved : N) (words : N) (body : list N) : list N :=
  [vendor mod 256; vendor / 256; type; reserved]%N ++ bytes4 (words mod 2 ^ 18) ++ body.

(** An object that is complete: its length is the one in its header. *)
Definition complete (words : N) (body : list N) : Prop :=
  (3 <= words <= 2 ^ 18)%N /\ N.of_nat (8 + length body) = (4 * words)%N.

(** A walk through the entries of a device from index 0, as a host does it:
    ask for an entry, note it, go on with the next index until that is 0.  At
    most [fuel] questions are asked. *)
Fixpoint walk (fuel : nat) (ask : N -> option (N * N * N)) (index : N) : option (list (N * N)) :=
  match fuel with
  | O => None
  | S fuel =>
      match ask index with
      | None => None
      | Some (vendor, type, next) =>
          if (next =? 0)%N then Some [(vendor, type)]
          else match walk fuel ask next with
               | None => None
               | Some l => Some ((vendor, type) :: l)
               end
      end
  end.
