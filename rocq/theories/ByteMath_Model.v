(** Model of core/common/common_math.c.

    Simplifications common to all definitions of this file: an array pointer and its length are one
    list; the NULL checks are dropped; [int] counters are mathematical integers (they would need an
    array of 2^28 bytes to overflow). *)
From Coq Require Import List NArith ZArith Bool Arith.
From Verif Require Import Base.
Import ListNotations.

(** common_math.h:67-72, the status codes. *)
Inductive cm_status := CM_OK | CM_INVALID_ARGUMENT | CM_BOUNDARY_REACHED | CM_OUT_OF_RANGE.

(** common_math.c:18-21 *)
Definition swap16 (d : N) : N :=
  N.lor (N.land (N.shiftr d 8) 0xff) (N.shiftl (N.land d 0xff) 8).

(** common_math.c:30-34 *)
Definition swap32 (d : N) : N :=
  N.lor (swap16 (N.land (N.shiftr d 16) 0xffff)) (N.shiftl (swap16 (N.land d 0xffff)) 16).

(** common_math.c:43-47 *)
Definition swap64 (d : N) : N :=
  N.lor (swap32 (N.land (N.shiftr d 32) 0xffffffff)) (N.shiftl (swap32 (N.land d 0xffffffff)) 32).

(** common_math.c:58-75, common_math_count_set_bits.  The loop ends when the byte is exhausted, so
    eight iterations of fuel are enough for a uint8_t. *)
Fixpoint count_set_bits_loop (fuel : nat) (byte : N) (stop : Z) (num : nat) : nat :=
  match fuel with
  | O => num
  | S f =>
    if negb (byte =? 0)%N && negb (stop =? 0)%Z then
      let '(num, stop) :=
        if N.odd byte then (S num, stop)
        else if (stop <? 0)%Z then (num, 1%Z) else (num, stop) in
      count_set_bits_loop f (N.shiftr byte 1) (stop - 1)%Z num
    else num
  end.
Definition count_set_bits (byte : N) (stop : Z) : nat := count_set_bits_loop 8 byte stop 0.

(** common_math.c:84-87 *)
Definition get_num_bits_set (byte : N) : nat := count_set_bits byte 8.

(** common_math.c:99-102 *)
Definition get_num_bits_set_before_index (byte : N) (index : N) : nat :=
  count_set_bits byte (Z.of_N index).

(** common_math.c:113-127 *)
Definition get_num_bits_set_in_array (bytes : list N) : nat :=
  fold_left (fun bits b => bits + count_set_bits b 8) bytes 0.

(** common_math.c:137-140 *)
Definition get_num_contiguous_bits_set (byte : N) : nat := count_set_bits byte (-1).

(** common_math.c:151-167; the loop walks the array while the last byte was all ones. *)
Fixpoint num_contiguous_loop (bytes : list N) (total : nat) : nat :=
  match bytes with
  | [] => total
  | b :: t =>
    let bits := count_set_bits b (-1) in
    let total := total + bits in
    if bits =? 8 then num_contiguous_loop t total else total
  end.
Definition get_num_contiguous_bits_set_in_array (bytes : list N) : nat :=
  num_contiguous_loop bytes 0.

(** common_math.c:187-190, the carry loop of the increment: walks down while bytes are 0xff. *)
Fixpoint inc_carry (bytes : list N) (index : nat) : list N * nat :=
  match index with
  | O => (bytes, O)
  | S i => if (nth index bytes 0%N =? 255)%N then inc_carry (upd bytes index 0%N) i
           else (bytes, index)
  end.

(** common_math.c:179-207 *)
Definition increment_byte_array (bytes : list N) (allow_rollover : bool) : list N * cm_status :=
  match bytes with
  | [] => (bytes, CM_INVALID_ARGUMENT)
  | _ =>
    let '(b, index) := inc_carry bytes (length bytes - 1) in
    if (index =? 0) && (nth 0 b 0%N =? 255)%N then
      if allow_rollover then (upd b 0 0%N, CM_OK)
      else (repeat 255%N (length b), CM_BOUNDARY_REACHED)
    else (upd b index ((nth index b 0 + 1) mod 256)%N, CM_OK)
  end.

(** common_math.c:226-229 *)
Fixpoint dec_borrow (bytes : list N) (index : nat) : list N * nat :=
  match index with
  | O => (bytes, O)
  | S i => if (nth index bytes 0%N =? 0)%N then dec_borrow (upd bytes index 255%N) i
           else (bytes, index)
  end.

(** common_math.c:218-246; [bytes[index]--] wraps modulo 256. *)
Definition decrement_byte_array (bytes : list N) (allow_rollover : bool) : list N * cm_status :=
  match bytes with
  | [] => (bytes, CM_INVALID_ARGUMENT)
  | _ =>
    let '(b, index) := dec_borrow bytes (length bytes - 1) in
    if (index =? 0) && (nth 0 b 0%N =? 0)%N then
      if allow_rollover then (upd b 0 255%N, CM_OK)
      else (repeat 0%N (length b), CM_BOUNDARY_REACHED)
    else (upd b index ((nth index b 0 + 255) mod 256)%N, CM_OK)
  end.

(** common_math.c:336-350 *)
Definition is_array_zero (bytes : list N) : bool :=
  match bytes with
  | [] => false
  | _ => fold_left (fun z b => z && (b =? 0)%N) bytes true
  end.

(** common_math.c:315-324, the constant-time comparison loop; the masks select the first non-zero
    difference. *)
Fixpoint compare_loop (b1 b2 : list N) (result : Z) : Z :=
  match b1, b2 with
  | x :: t1, y :: t2 =>
    let diff := (Z.of_N x - Z.of_N y)%Z in
    let mask := if (result =? 0)%Z then (-1)%Z else 0%Z in
    compare_loop t1 t2 (Z.lor (Z.land result (Z.lnot mask)) (Z.land diff mask))
  | _, _ => result
  end.

(** common_math.c:261-325 *)
Definition compare_array (bytes1 bytes2 : list N) : Z :=
  match bytes1, bytes2 with
  | [], [] => 0%Z
  | [], _ => (-1)%Z
  | _, [] => 1%Z
  | _, _ =>
    let l1 := length bytes1 in
    let l2 := length bytes2 in
    if l2 <? l1 then
      let diff := l1 - l2 in
      if is_array_zero (firstn diff bytes1) then compare_loop (skipn diff bytes1) bytes2 0
      else 1%Z
    else if l1 <? l2 then
      let diff := l2 - l1 in
      if is_array_zero (firstn diff bytes2) then compare_loop bytes1 (skipn diff bytes2) 0
      else (-1)%Z
    else compare_loop bytes1 bytes2 0
  end.

(** common_math.c:363-378; [None] is COMMON_MATH_OUT_OF_RANGE. *)
Definition get_bit_mask (length bit : nat) : option (nat * N) :=
  let byte := bit / 8 in
  let mask := N.shiftl 1 (N.of_nat (bit mod 8)) in
  if length <=? byte then None else Some (byte, mask).

(** common_math.c:390-402 *)
Definition is_bit_set_in_array (bytes : list N) (bit : nat) : option bool :=
  match get_bit_mask (length bytes) bit with
  | None => None
  | Some (byte, mask) => Some (negb (N.land (nth byte bytes 0%N) mask =? 0)%N)
  end.

(** common_math.c:414-428 *)
Definition set_bit_in_array (bytes : list N) (bit : nat) : list N * cm_status :=
  match get_bit_mask (length bytes) bit with
  | None => (bytes, CM_OUT_OF_RANGE)
  | Some (byte, mask) => (upd bytes byte (N.lor (nth byte bytes 0%N) mask), CM_OK)
  end.

(** common_math.c:440-454; [~mask] on a uint8_t. *)
Definition clear_bit_in_array (bytes : list N) (bit : nat) : list N * cm_status :=
  match get_bit_mask (length bytes) bit with
  | None => (bytes, CM_OUT_OF_RANGE)
  | Some (byte, mask) => (upd bytes byte (N.land (nth byte bytes 0%N) (N.lxor mask 0xff)), CM_OK)
  end.

(** common_math.c:465-477 *)
Definition set_next_bit_in_array (bytes : list N) : list N * cm_status :=
  set_bit_in_array bytes (get_num_contiguous_bits_set_in_array bytes).

(** common_math.c:489-509.  The loop sets one more bit until the parity of the contiguous count is
    the wanted one; [None] means the fuel ran out (the proofs show that the fuel of one iteration
    per bit plus one is always enough). *)
Fixpoint set_contiguous_loop (fuel : nat) (bytes : list N) (even : nat) : option (list N * cm_status) :=
  match fuel with
  | O => None
  | S f =>
    let bits := get_num_contiguous_bits_set_in_array bytes in
    if bits mod 2 =? even then
      match set_bit_in_array bytes bits with
      | (b, CM_OUT_OF_RANGE) => Some (b, CM_OUT_OF_RANGE)
      | (b, _) => set_contiguous_loop f b even
      end
    else Some (bytes, CM_OK)
  end.
Definition set_contiguous_bits_to_count (bytes : list N) (even : nat) : option (list N * cm_status) :=
  set_contiguous_loop (S (8 * length bytes)) bytes even.

(** common_math.c:520-523 and 534-537 *)
Definition set_next_bit_even_count (bytes : list N) := set_contiguous_bits_to_count bytes 1.
Definition set_next_bit_odd_count (bytes : list N) := set_contiguous_bits_to_count bytes 0.

(** common_math.c:571-574, the downward loop over i in (shift_bytes, length). *)
Fixpoint rshift_loop (n : nat) (lo : nat) (bytes : list N) (s : N) : list N :=
  match n with
  | O => bytes
  | S m =>
    let i := lo + n in
    let v := (N.lor (N.shiftl (nth (i - 1) bytes 0) (8 - s)) (N.shiftr (nth i bytes 0) s) mod 256)%N in
    rshift_loop m lo (upd bytes i v) s
  end.

(** common_math.c:547-578 *)
Definition right_shift_array (bytes : list N) (shift_bits : nat) : list N :=
  if (length bytes =? 0) || (shift_bits =? 0) then bytes
  else
    let shift_bytes := shift_bits / 8 in
    let s := N.of_nat (shift_bits mod 8) in
    if length bytes <=? shift_bytes then repeat 0%N (length bytes)
    else
      let moved := repeat 0%N shift_bytes ++ firstn (length bytes - shift_bytes) bytes in
      let b := rshift_loop (length bytes - 1 - shift_bytes) shift_bytes moved s in
      upd b shift_bytes (N.shiftr (nth shift_bytes b 0%N) s).

(** common_math.c:613-616, the upward loop over i in [0, length-1). *)
Fixpoint lshift_loop (n : nat) (i : nat) (bytes : list N) (s : N) : list N :=
  match n with
  | O => bytes
  | S m =>
    let v := (N.lor (N.shiftl (nth i bytes 0) s) (N.shiftr (nth (i + 1) bytes 0) (8 - s)) mod 256)%N in
    lshift_loop m (S i) (upd bytes i v) s
  end.

(** common_math.c:588-620 *)
Definition left_shift_array (bytes : list N) (shift_bits : nat) : list N :=
  if (length bytes =? 0) || (shift_bits =? 0) then bytes
  else
    let shift_bytes := shift_bits / 8 in
    let s := N.of_nat (shift_bits mod 8) in
    if length bytes <=? shift_bytes then repeat 0%N (length bytes)
    else
      let len := length bytes - shift_bytes in
      let moved := skipn shift_bytes bytes ++ repeat 0%N shift_bytes in
      let b := lshift_loop (len - 1) 0 moved s in
      upd b (len - 1) (N.shiftl (nth (len - 1) b 0%N) s mod 256)%N.

(** common_math.c:629-656; [max] is UINT8_MAX, UINT16_MAX or UINT32_MAX. *)
Definition saturating_increment (max value : N) : N :=
  if (value =? max)%N then max else (value + 1)%N.
