(** AES key wrap: core/crypto/aes_key_wrap.c and aes_key_wrap_with_padding.c.

    The block cipher is a parameter: one 16-byte block in, one out, or an error from the engine.
    Simplifications: NULL-pointer checks are dropped; lengths are unbounded (no size_t or int
    overflow, which needs buffers of more than 2 GiB); the caller's input is a separate value, which is what
    the memmove into the output buffer makes of overlapping buffers. *)
From Coq Require Import List NArith Bool Arith.
From Verif Require Import Base ByteMath_Model BufferUtil_Model.
Import ListNotations.
Local Open Scope nat_scope.

Inductive kw_status :=
| KwOk | KwNotAligned | KwNotEnough | KwTooMuch | KwSmallBuffer | KwIntegrity | KwLength | KwPadding | KwEngine.

Definition BLOCK : nat := 8.                                              (* aes_key_wrap_interface.h:16 *)
Definition KW_IV : list N := [166; 166; 166; 166; 166; 166; 166; 166]%N.  (* aes_key_wrap.c 18-20 *)
Definition ITERATIONS : nat := 6.                                         (* aes_key_wrap.c:32 *)
Definition KWP_IV : list N := [166; 89; 89; 166]%N.                       (* aes_key_wrap_with_padding.c 19-21 *)
Definition KWP_MAX : N := 0xfffffff8.                                     (* aes_key_wrap_with_padding.c:28 *)

(** *a ^= t on 8 bytes, aes_key_wrap.c:98 and 182. *)
Fixpoint xor_bytes (a b : list N) : list N :=
  match a, b with
  | x :: a, y :: b => N.lxor x y :: xor_bytes a b
  | _, _ => []
  end.

(** The bytes of [v] in network order: platform_htonll, platform_htonl. *)
Fixpoint be_bytes (k : nat) (v : N) : list N :=
  match k with
  | O => []
  | S k => (v / 256 ^ N.of_nat k) mod 256 :: be_bytes k v
  end%N.

Section Cipher.
Variable enc dec : list N -> option (list N).

(** The inner loop of aes_key_wrap_data_wrap, aes_key_wrap.c 86-101: [cnt] blocks from index [i], with
    the check value [a], the counter bytes [t] and the buffer [w]. *)
Fixpoint wrap_inner (cnt i : nat) (a t w : list N) : option (list N * list N * list N) :=
  match cnt with
  | O => Some (a, t, w)
  | S c =>
    match enc (a ++ window (i * BLOCK) BLOCK w) with
    | None => None
    | Some b =>
      let t := fst (increment_byte_array t false) in
      wrap_inner c (S i) (xor_bytes (firstn BLOCK b) t) t (splice w (i * BLOCK) (skipn BLOCK b))
    end
  end.

(** The outer loop, 85-102. *)
Fixpoint wrap_outer (rounds n : nat) (a t w : list N) : option (list N * list N * list N) :=
  match rounds with
  | O => Some (a, t, w)
  | S r =>
    match wrap_inner n 1 a t w with
    | None => None
    | Some (a, t, w) => wrap_outer r n a t w
    end
  end.

(** aes_key_wrap_data_wrap, 71-111. *)
Definition data_wrap (iv w : list N) (length : nat) : option (list N) :=
  match wrap_outer ITERATIONS (length / BLOCK) iv (repeat 0%N 8) w with
  | None => None
  | Some (a, _, w) => Some (splice w 0 a)
  end.

(** aes_key_wrap_wrap, 113-146; [out] is the output buffer. *)
Definition kw_wrap (data out : list N) : kw_status * list N :=
  let len := length data in
  if negb (len mod BLOCK =? 0) then (KwNotAligned, out)
  else if len <? BLOCK * 2 then (KwNotEnough, out)
  else if length out <? len + BLOCK then (KwSmallBuffer, out)
  else
    let w := splice out BLOCK data in
    match data_wrap KW_IV w len with
    | Some w => (KwOk, w)
    | None => (KwEngine, repeat 0%N (length out))
    end.

(** The inner loop of aes_key_wrap_data_unwrap, 181-196: blocks [cnt - 1] down to 0. *)
Fixpoint unwrap_inner (cnt : nat) (a t d : list N) : option (list N * list N * list N) :=
  match cnt with
  | O => Some (a, t, d)
  | S i =>
    let a := xor_bytes a t in
    match dec (a ++ window (i * BLOCK) BLOCK d) with
    | None => None
    | Some b =>
      unwrap_inner i (firstn BLOCK b) (fst (decrement_byte_array t false)) (splice d (i * BLOCK) (skipn BLOCK b))
    end
  end.

(** 180-197 *)
Fixpoint unwrap_outer (rounds n : nat) (a t d : list N) : option (list N * list N * list N) :=
  match rounds with
  | O => Some (a, t, d)
  | S r =>
    match unwrap_inner n a t d with
    | None => None
    | Some (a, t, d) => unwrap_outer r n a t d
    end
  end.

(** aes_key_wrap_data_unwrap, 160-206: the recovered check value and the data buffer. *)
Definition data_unwrap (wrapped d : list N) : option (list N * list N) :=
  let n := (length wrapped - BLOCK) / BLOCK in
  match unwrap_outer ITERATIONS n (firstn BLOCK wrapped) (be_bytes 8 (N.of_nat (n * ITERATIONS)))
          (splice d 0 (skipn BLOCK wrapped)) with
  | None => None
  | Some (a, _, d) => Some (a, d)
  end.

(** aes_key_wrap_unwrap, 208-247: the status, the data buffer and the length reported.  [d] is the
    caller's buffer of *out_length bytes. *)
Definition kw_unwrap (wrapped d : list N) : kw_status * list N * nat :=
  let len := length wrapped in
  let out := length d in
  if negb (len mod BLOCK =? 0) then (KwNotAligned, d, out)
  else if len <? BLOCK * 3 then (KwNotEnough, d, out)
  else if out <? len - BLOCK then (KwSmallBuffer, d, out)
  else
    match data_unwrap wrapped d with
    | None => (KwEngine, repeat 0%N out, out)
    | Some (a, d') =>
      if buffer_compare (N.ones 8) (Some a) (Some KW_IV) BLOCK then (KwOk, d', len - BLOCK)
      else (KwIntegrity, repeat 0%N out, out)
    end.

(** AES_KEY_WRAP_INTERFACE_ALIGNED_LENGTH, aes_key_wrap_interface.h 25-27. *)
Definition aligned (len : nat) : nat := (len + (BLOCK - 1)) / BLOCK * BLOCK.

(** aes_key_wrap_with_padding_wrap, aes_key_wrap_with_padding.c 31-83. *)
Definition kwp_wrap (data out : list N) : kw_status * list N :=
  let len := length data in
  if len =? 0 then (KwNotEnough, out)
  else if (KWP_MAX <? N.of_nat len)%N then (KwTooMuch, out)
  else if length out <? aligned len + BLOCK then (KwSmallBuffer, out)
  else
    let iv := KWP_IV ++ be_bytes 4 (N.of_nat len) in
    let w := splice out BLOCK data in
    let w := splice w (BLOCK + len) (repeat 0%N (aligned len - len)) in
    let r :=
      if BLOCK <? aligned len then data_wrap iv w (aligned len)
      else
        let w := splice w 0 iv in
        match enc (firstn 16 w) with
        | None => None
        | Some b => Some (splice w 0 b)
        end in
    match r with
    | Some w => (KwOk, w)
    | None => (KwEngine, repeat 0%N (length out))
    end.

(** aes_key_wrap_with_padding_unwrap, 85-168. *)
Definition kwp_unwrap (wrapped d : list N) : kw_status * list N * nat :=
  let len := length wrapped in
  let out := length d in
  if negb (aligned len =? len) then (KwNotAligned, d, out)
  else if len <? BLOCK * 2 then (KwNotEnough, d, out)
  else if out <? len - BLOCK then (KwSmallBuffer, d, out)
  else
    let r :=
      if 16 <? len then data_unwrap wrapped d
      else
        match dec wrapped with
        | None => None
        | Some b => Some (firstn BLOCK b, splice d 0 (skipn BLOCK b))
        end in
    match r with
    | None => (KwEngine, repeat 0%N out, out)
    | Some (a, d') =>
      let status :=
        if buffer_compare (N.ones 8) (Some a) (Some KWP_IV) 4 then
          let data_length := be_value (skipn 4 a) in
          if (data_length <=? N.of_nat (len - BLOCK * 2))%N then KwLength
          else if (N.of_nat (len - BLOCK) <? data_length)%N then KwLength
          else if forallb (fun b => (b =? 0)%N)
                    (window (N.to_nat data_length) (len - BLOCK - N.to_nat data_length) d')
          then KwOk else KwPadding
        else KwIntegrity in
      match status with
      | KwOk => (KwOk, d', N.to_nat (be_value (skipn 4 a)))
      | e => (e, repeat 0%N out, out)
      end
    end.

End Cipher.
