(** Model of core/common/buffer_util.c (copy, reverse, compare, zeroize). *)
From Coq Require Import List NArith Bool Arith.
From Verif Require Import Base.
Import ListNotations.

(** buffer_util.c:25-63, buffer_copy.  Pointers that the function compares with NULL are options; the
    destination is the memory from [dest] onwards.  Result: return value, updated *offset, updated
    *dest_length, updated destination memory. *)
Definition buffer_copy (src : option (list N)) (offset dest_length : option nat)
    (dest : option (list N)) : nat * option nat * option nat * option (list N) :=
  match src, dest with
  | Some s, Some d =>
    if length s =? 0 then (0, offset, dest_length, dest)
    else
      let start := match offset with Some o => o | None => 0 end in
      match offset with
      | Some o =>
        if length s <=? o then (0, Some (o - length s), dest_length, dest)
        else
          match dest_length with
          | None => (0, offset, None, dest)
          | Some n =>
            let bytes := Nat.min (length s - start) n in
            (bytes, Some 0, Some (n - bytes), Some (splice d 0 (firstn bytes (skipn start s))))
          end
      | None =>
        match dest_length with
        | None => (0, None, None, dest)
        | Some n =>
          let bytes := Nat.min (length s - start) n in
          (bytes, None, Some (n - bytes), Some (splice d 0 (firstn bytes (skipn start s))))
        end
      end
  | _, _ => (0, offset, dest_length, dest)
  end.

(** The calling pattern used throughout the code base, e.g. attestation/pcr.c:1232-1290
    (pcr_get_tcg_log): every segment is copied to [&buf[total]] with the same [&offset] and
    [&remaining], and the return value is added to [total]. *)
Fixpoint copy_segments (segs : list (list N)) (offset remaining total : nat) (buf : list N)
    : nat * nat * nat * list N :=
  match segs with
  | [] => (offset, remaining, total, buf)
  | s :: t =>
    match buffer_copy (Some s) (Some offset) (Some remaining) (Some (skipn total buf)) with
    | (n, Some o, Some r, Some d) => copy_segments t o r (total + n) (firstn total buf ++ d)
    | _ => (offset, remaining, total, buf)
    end
  end.

(** buffer_util.c:78-82, the swap loop: [n] iterations left, current index [i]; [j = length-1-i]. *)
Fixpoint reverse_loop (n i : nat) (buf : list N) : list N :=
  match n with
  | O => buf
  | S m =>
    let j := length buf - 1 - i in
    let temp := nth i buf 0%N in
    reverse_loop m (S i) (upd (upd buf i (nth j buf 0%N)) j temp)
  end.
(** buffer_util.c:71-84 *)
Definition buffer_reverse (buf : list N) : list N := reverse_loop (length buf / 2) 0 buf.

(** buffer_util.c:99-109; also 126-144 for 32-bit elements. *)
Fixpoint reverse_copy_loop (n i : nat) (dest src : list N) (len : nat) : list N :=
  match n with
  | O => dest
  | S m => reverse_copy_loop m (S i) (upd dest i (nth (len - 1 - i) src 0%N)) src len
  end.
Definition buffer_reverse_copy (dest src : list N) (len : nat) : list N :=
  reverse_copy_loop len 0 dest src len.

(** buffer_util.c:173-179, the constant-time comparison loop; [ones] is 0xff (or 0xffffffff for
    buffer_compare_dwords, 197-218). *)
Fixpoint compare_match (ones : N) (b1 b2 : list N) (n : nat) (m : N) : N :=
  match n with
  | O => m
  | S k =>
    compare_match ones (tl b1) (tl b2) k
      (N.land m (N.lxor (N.lxor (hd 0%N b1) ones) (hd 0%N b2)))
  end.
(** buffer_util.c:159-180: true when the buffers match (return value 0).  NULL pointers are [None]. *)
Definition buffer_compare (ones : N) (b1 b2 : option (list N)) (len : nat) : bool :=
  match b1, b2 with
  | None, None => len =? 0
  | Some x, Some y => (compare_match ones x y len ones =? ones)%N
  | _, _ => false
  end.

(** buffer_util.c:235-240 and 249-258 *)
Definition buffer_zeroize (buf : list N) (len : nat) : list N := splice buf 0 (repeat 0%N len).
