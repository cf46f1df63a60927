(** C11: segmented copies are windows of the concatenation; the other buffer helpers. *)
From Coq Require Import List NArith Lia Bool Arith.
From Verif Require Import Base BufferUtil_Model BufferUtil_Proofs.
Import ListNotations.

(** Copying any list of segments with a shared offset and remaining length into [buf] at [total]
    writes exactly the window [offset, offset+length) of the concatenation there, leaves the rest of
    the buffer unchanged, and returns the number of bytes copied; the offset left over is what is
    still to be skipped. *)
Theorem C11_segmented_copy : forall segs off len total buf, total + len <= length buf ->
  let w := window off len (concat segs) in
  copy_segments segs off len total buf =
    (off - length (concat segs), len - length w, total + length w, splice buf total w).
Proof. exact copy_segments_correct. Qed.
Print Assumptions C11_segmented_copy.

Example C11_segmented_copy_ex :
  copy_segments [[1;2;3];[];[4;5];[6;7;8]]%N 2 4 1 [90;91;92;93;94;95]%N =
    (0, 0, 5, [90;3;4;5;6;95]%N).
Proof. reflexivity. Qed.

(** NULL pointers and empty segments change nothing. *)
Theorem C11_null_is_noop : forall src off dl dest,
  (src = None \/ dest = None \/ src = Some []) -> buffer_copy src off dl dest = (0, off, dl, dest).
Proof. exact buffer_copy_null. Qed.
Print Assumptions C11_null_is_noop.

Theorem C11_reverse : forall b, buffer_reverse b = rev b.
Proof. exact buffer_reverse_correct. Qed.
Print Assumptions C11_reverse.

Example C11_reverse_ex : buffer_reverse [1;2;3;4;5]%N = [5;4;3;2;1]%N.
Proof. reflexivity. Qed.

Theorem C11_reverse_copy : forall dest src len, len <= length dest -> len <= length src ->
  buffer_reverse_copy dest src len = splice dest 0 (rev (firstn len src)).
Proof. exact buffer_reverse_copy_correct. Qed.
Print Assumptions C11_reverse_copy.

Example C11_reverse_copy_ex : buffer_reverse_copy [9;9;9;9]%N [1;2;3]%N 3 = [3;2;1;9]%N.
Proof. reflexivity. Qed.

(** The constant-time comparison accepts exactly equal contents, for bytes ([w = 8]) and for
    32-bit words ([w = 32]). *)
Theorem C11_compare : forall w b1 b2 len,
  Forall (fun x => x < 2 ^ w)%N b1 -> Forall (fun x => x < 2 ^ w)%N b2 ->
  len <= length b1 -> len <= length b2 ->
  (buffer_compare (N.ones w) (Some b1) (Some b2) len = true <-> firstn len b1 = firstn len b2).
Proof. exact buffer_compare_correct. Qed.
Print Assumptions C11_compare.

Example C11_compare_ex : buffer_compare 0xff (Some [1;2;3]%N) (Some [1;2;4]%N) 2 = true /\
  buffer_compare 0xff (Some [1;2;3]%N) (Some [1;2;4]%N) 3 = false.
Proof. split; reflexivity. Qed.
