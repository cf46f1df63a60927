(** Model of core/asn1/asn1_util.c and core/asn1/ecc_der_util.c.

    Every read and write is checked against the size of the buffer it is in, and every subtraction of lengths against zero: [Over]
    is an access outside of a buffer or a length below zero.  A buffer that an error leaves behind is not part of the result.
    Simplifications: pointers are not null; ECC_MAX_KEY_LENGTH is the length for P-521 (ecc.h:21); lengths given by callers
    and sizes of key buffers are natural numbers.  Lengths read from data are numbers modulo the range of size_t, and the shift by 24 bits
    of a byte of 128 or more, which C leaves undefined, gives the negative int it gives on the usual compilers. *)
From Coq Require Import List NArith Bool Arith.
From Verif Require Import Base.
Import ListNotations.

Inductive res (A : Type) := Ret (a : A) | Err | Over.
Arguments Ret {A} a.
Arguments Err {A}.
Arguments Over {A}.

Definition bind {A B} (x : res A) (f : A -> res B) : res B := match x with Ret a => f a | Err => Err | Over => Over end.
Notation "x <- e ; f" := (bind e (fun x => f)) (at level 61, e at next level, right associativity).
Notation "' p <- e ; f" := (bind e (fun p => f)) (at level 61, p pattern, e at next level, right associativity).

(** Reading one byte, reading [n] bytes, writing, moving on, and subtracting. *)
Definition rd (l : list N) (i : nat) : res N := match nth_error l i with Some x => Ret x | None => Over end.
Definition rds (l : list N) (n : nat) : res (list N) := if n <=? length l then Ret (firstn n l) else Over.
Definition wr (l : list N) (p : nat) (d : list N) : res (list N) := if p + length d <=? length l then Ret (splice l p d) else Over.
Definition skip (l : list N) (n : nat) : res (list N) := if n <=? length l then Ret (skipn n l) else Over.
Definition sub (a b : nat) : res nat := if b <=? a then Ret (a - b) else Over.

(** ** asn1_util.c *)
Section Asn1.
(** The number of values of size_t. *)
Variable SIZE : N.

(** asn1_util.c:73, the conversion to size_t *)
Definition of_int (v : N) : N := if (v <? 2 ^ 31)%N then v else (v + (SIZE - 2 ^ 32))%N.

(** asn1_util.c:29-90, asn1_parse_der_header: the length of the item and of the header. *)
Definition header (der : list N) : res (N * nat) :=
  if length der <? 2 then Err
  else
    p <- rd der 1;
    if (p =? 0x81)%N then
      if length der <? 3 then Err else a <- rd der 2; Ret (a, 3)
    else if (p =? 0x82)%N then
      if length der <? 4 then Err else a <- rd der 2; b <- rd der 3; Ret ((a * 256 + b)%N, 4)
    else if (p =? 0x83)%N then
      if length der <? 5 then Err else a <- rd der 2; b <- rd der 3; c <- rd der 4; Ret ((a * 65536 + b * 256 + c)%N, 5)
    else if (p =? 0x84)%N then
      if length der <? 6 then Err
      else a <- rd der 2; b <- rd der 3; c <- rd der 4; d <- rd der 5; Ret (of_int (a * 16777216 + b * 65536 + c * 256 + d)%N, 6)
    else if (p <? 0x80)%N then Ret (p, 2) else Err.

(** asn1_util.c:104-126, asn1_get_item: what follows the header, and the length of the item. *)
Definition get_item (tag : N) (der : list N) : res (list N * N) :=
  '(len, h) <- header der;
  t <- rd der 0;
  if negb (t =? tag)%N then Err
  else if (N.of_nat (length der) <? (N.of_nat h + len) mod SIZE)%N then Err
  else rest <- skip der h; Ret (rest, len).

(** asn1_util.c:169-180, asn1_get_der_encoded_length, with asn1_util.c:137-153, asn1_get_der_item_len: the sum is converted to int,
    and back; an error is a negative number. *)
Definition encoded_length (der : list N) : N :=
  match header der with
  | Ret (len, h) => let l := of_int ((len + N.of_nat h) mod 2 ^ 32) in if (N.of_nat (length der) <=? l)%N then N.of_nat (length der) else l
  | _ => N.of_nat (length der)
  end.

(** asn1_util.c:205-208: the first byte that is not zero; bytes are counted from the least significant one. *)
Fixpoint top_byte (v : N) (k : nat) : nat :=
  match k with
  | O => O
  | S j => if ((v / 2 ^ (8 * N.of_nat k)) mod 256 =? 0)%N then top_byte v j else k
  end.

(** asn1_util.c:218-227, from byte [k] down *)
Fixpoint put_bytes (v : N) (k : nat) (buf : list N) (n : nat) : res (list N * nat) :=
  if 2 + n <? length buf then
    buf <- wr buf (2 + n) [((v / 2 ^ (8 * N.of_nat k)) mod 256)%N];
    match k with O => Ret (buf, S n) | S j => put_bytes v j buf (S n) end
  else Err.

(** asn1_util.c:191-234, asn1_encode_integer *)
Definition encode_integer (v : N) (buf : list N) : res (list N * nat) :=
  if length buf <? 3 then Err
  else
    let k := top_byte v 7 in
    '(buf, n) <- (if N.testbit (v / 2 ^ (8 * N.of_nat k)) 7 then buf <- wr buf 2 [0%N]; Ret (buf, 1) else Ret (buf, 0));
    '(buf, n) <- put_bytes v k buf n;
    buf <- wr buf 0 [2%N];
    buf <- wr buf 1 [N.of_nat n];
    Ret (buf, 2 + n).

(** asn1_util.c:271-273 *)
Fixpoint get_bytes (n : nat) (l : list N) (i : nat) (acc : N) : res N :=
  match n with
  | O => Ret acc
  | S m => x <- rd l i; get_bytes m l (S i) ((acc * 256 + x) mod 2 ^ 64)%N
  end.

(** asn1_util.c:245-278, asn1_decode_integer *)
Definition decode_integer (der : list N) : res N :=
  '(rest, len) <- get_item 2 der;
  first <- rd rest 0;
  if N.testbit first 7 then Err
  else if (9 <? len)%N || ((len =? 9)%N && negb (first =? 0)%N) then Err
  else get_bytes (N.to_nat len) rest 0 0.

(** asn1_util.c:291-314, asn1_encode_base128_oid *)
Definition encode_oid (oid buf : list N) : res (list N * nat) :=
  if length oid =? 0 then Err
  else if 127 <? length oid then Err
  else if length buf <? 2 + length oid then Err
  else
    buf <- wr buf 0 [6%N];
    buf <- wr buf 1 [N.of_nat (length oid)];
    buf <- wr buf 2 oid;
    Ret (buf, 2 + length oid).

(** asn1_util.c:328-338, asn1_decode_base128_oid: the OID starts with the list and has the length. *)
Definition decode_oid (der : list N) : res (list N * N) := get_item 6 der.
End Asn1.

(** ** ecc_der_util.c *)

(** ecc_der_util.c:9-39 and ecc.h:14-16 *)
Definition P256_OID : list N := [0x2a; 0x86; 0x48; 0xce; 0x3d; 0x03; 0x01; 0x07]%N.
Definition P384_OID : list N := [0x2b; 0x81; 0x04; 0x00; 0x22]%N.
Definition P521_OID : list N := [0x2b; 0x81; 0x04; 0x00; 0x23]%N.
Definition EC_PUBLIC_KEY_OID : list N := [0x2a; 0x86; 0x48; 0xce; 0x3d; 0x02; 0x01]%N.

Definition same (a b : list N) : bool := if list_eq_dec N.eq_dec a b then true else false.

(** ecc_der_util.c:54-97, ecc_der_get_next_tag: what follows the header, the length that is left, and the length of the item. *)
Definition next_tag (type : N) (der : list N) (len : nat) : res (list N * nat * nat) :=
  if len <? 3 then Err
  else
    t <- rd der 0;
    if negb (t =? type)%N then Err
    else
      p <- rd der 1;
      '(tl, hl) <- (if (p <? 0x80)%N then Ret (N.to_nat p, 2)
                    else if (p =? 0x81)%N then q <- rd der 2; Ret (N.to_nat q, 3)
                    else Err);
      if len <? hl + tl then Err
      else der <- skip der hl; len <- sub len hl; Ret (der, len, tl).

(** ecc_der_util.c:112-145, ecc_der_add_next_tag, in a buffer at a position with a length left *)
Definition add_tag (type : N) (tl : nat) (data : option (list N)) (buf : list N) (pos len : nat) : res (list N * nat * nat) :=
  if len <? 3 then Err
  else
    buf <- wr buf pos [type];
    let pos := S pos in
    '(buf, pos, len) <- (if 128 <=? tl then buf <- wr buf pos [0x81%N]; len <- sub len 1; Ret (buf, S pos, len) else Ret (buf, pos, len));
    buf <- wr buf pos [(N.of_nat tl mod 256)%N];
    let pos := S pos in
    len <- sub len 2;
    match data with
    | Some d =>
      if len <? tl then Err
      else d <- rds d tl; buf <- wr buf pos d; len <- sub len tl; Ret (buf, pos + tl, len)
    | None => Ret (buf, pos, len)
    end.

(** ecc_der_util.c:173-202, ecc_der_encode_public_key_bit_string *)
Definition add_bit_string (x y : list N) (k : nat) (buf : list N) (pos len : nat) : res (list N * nat * nat) :=
  '(buf, pos, len) <- add_tag 3 (k * 2 + 2) None buf pos len;
  if len <? 2 + k * 2 then Err
  else
    buf <- wr buf pos [0; 4]%N;
    x <- rds x k;
    buf <- wr buf (pos + 2) x;
    y <- rds y k;
    buf <- wr buf (pos + 2 + k) y;
    len <- sub len (2 + k * 2);
    Ret (buf, pos + 2 + k + k, len).

(** ecc_der_util.c:314-362: the length of the private key, what is before it, and the curve. *)
Definition private_key_form (pos : list N) (tl : nat) : res (list N * nat * list N) :=
  let padded oid := z <- rd pos 0; if negb (z =? 0)%N then Err else pos <- skip pos 1; tl <- sub tl 1; Ret (pos, tl, oid) in
  if tl =? 33 then padded P256_OID
  else if tl =? 32 then Ret (pos, tl, P256_OID)
  else if tl =? 49 then padded P384_OID
  else if tl =? 48 then Ret (pos, tl, P384_OID)
  else if (tl =? 65) || (tl =? 66) then Ret (pos, tl, P521_OID)
  else Err.

(** ecc_der_util.c:277-390, ecc_der_decode_private_key_no_copy: the key is at the start of the list.  As in the code, the length that
    is left is reduced by the length of the key without the byte of padding. *)
Definition private_key_no_copy (der : list N) : res (list N * nat) :=
  '(pos, len, _) <- next_tag 0x30 der (length der);
  '(pos, len, tl) <- next_tag 0x02 pos len;
  if negb (tl =? 1) then Err
  else
    v <- rd pos 0;
    if negb (v =? 1)%N then Err
    else
      pos <- skip pos tl;
      len <- sub len tl;
      '(pos, len, tl) <- next_tag 0x04 pos len;
      '(pos, tl, oid) <- private_key_form pos tl;
      let key := pos in
      let kl := tl in
      pos <- skip pos tl;
      len <- sub len tl;
      '(pos, len, _) <- next_tag 0xa0 pos len;
      '(pos, len, tl) <- next_tag 0x06 pos len;
      if negb (tl =? length oid) then Err
      else o <- rds pos tl; if same o oid then Ret (key, kl) else Err.

(** ecc_der_util.c:218-259, ecc_der_decode_private_key into a buffer of [room] bytes: the key. *)
Definition decode_private_key (der : list N) (room : nat) : res (list N) :=
  '(pos, tl) <- private_key_no_copy der;
  let kl := if tl =? 65 then S tl else tl in
  if kl <=? room then
    if tl =? 65 then d <- rds pos tl; Ret (0%N :: d) else rds pos kl
  else Err.

(** ecc_der_util.c:408-507, ecc_der_encode_private_key; [pub] is the public key, if it is given. *)
Definition encode_private_key (d : list N) (pub : option (list N * list N)) (k : nat) (buf : list N) : res (list N * nat) :=
  let long := match pub with Some _ => 32 <? k | None => false end in
  let hl := if long then 3 else 2 in
  oid <- (if k =? 32 then Ret P256_OID else if k =? 48 then Ret P384_OID else if k =? 66 then Ret P521_OID else Err);
  '(buf, pos, len) <- add_tag 0x30 (if long then 0x80 else 0) None buf 0 (length buf);
  '(buf, pos, len) <- add_tag 0x02 1 (Some [1%N]) buf pos len;
  '(buf, pos, len) <- add_tag 0x04 k (Some d) buf pos len;
  '(buf, pos, len) <- add_tag 0xa0 (length oid + 2) None buf pos len;
  '(buf, pos, len) <- add_tag 0x06 (length oid) (Some oid) buf pos len;
  '(buf, pos, len) <- match pub with
    | Some (x, y) =>
      '(buf, pos, len) <- add_tag 0xa1 (k * 2 + (if negb (k =? 66) then 4 else 5)) None buf pos len;
      add_bit_string x y k buf pos len
    | None => Ret (buf, pos, len)
    end;
  n <- sub pos hl;
  buf <- wr buf (hl - 1) [(N.of_nat n mod 256)%N];
  l <- rd buf (hl - 1);
  Ret (buf, N.to_nat l + hl).

(** ecc_der_util.c:608-725, ecc_der_decode_public_key_no_copy: the point is at the start of the list. *)
Definition public_key_no_copy (der : list N) : res (list N * nat) :=
  '(pos, len, _) <- next_tag 0x30 der (length der);
  '(pos, len, _) <- next_tag 0x30 pos len;
  '(pos, len, tl) <- next_tag 0x06 pos len;
  if negb (tl =? length EC_PUBLIC_KEY_OID) then Err
  else
    a <- rds pos tl;
    if negb (same a EC_PUBLIC_KEY_OID) then Err
    else
      pos <- skip pos tl;
      len <- sub len tl;
      '(pos, len, ol) <- next_tag 0x06 pos len;
      let oid := pos in
      pos <- skip pos ol;
      len <- sub len ol;
      '(pos, len, tl) <- next_tag 0x03 pos len;
      if tl <? 2 then Err
      else
        pos <- skip pos 1;
        tl <- sub tl 1;
        f <- rd pos 0;
        if negb ((f =? 2)%N || (f =? 3)%N || (f =? 4)%N) then Err
        else
          let kl := (tl - 1) / 2 in
          expected <- (if kl =? 32 then Ret P256_OID else if kl =? 48 then Ret P384_OID else if kl =? 66 then Ret P521_OID else Err);
          if negb (ol =? length expected) then Err
          else o <- rds oid ol; if same o expected then Ret (pos, tl) else Err.

(** ecc_der_util.c:560-593, ecc_der_decode_public_key into buffers of [room] bytes *)
Definition decode_public_key (der : list N) (room : nat) : res (list N * list N) :=
  '(pos, tl) <- public_key_no_copy der;
  f <- rd pos 0;
  if negb (f =? 4)%N then Err
  else
    pos <- skip pos 1;
    let kl := (tl - 1) / 2 in
    if room <? kl then Err
    else x <- rds pos kl; pos <- skip pos kl; y <- rds pos kl; Ret (x, y).

(** ecc_der_util.c:742-813, ecc_der_encode_public_key *)
Definition encode_public_key (x y : list N) (k : nat) (buf : list N) : res (list N * nat) :=
  '(hl, al, oid) <- (if k =? 32 then Ret (2, 0x13, P256_OID) else if k =? 48 then Ret (2, 0x10, P384_OID)
                     else if k =? 66 then Ret (3, 0x10, P521_OID) else Err);
  '(buf, pos, len) <- add_tag 0x30 (if hl =? 2 then 0 else 0x80) None buf 0 (length buf);
  '(buf, pos, len) <- add_tag 0x30 al None buf pos len;
  '(buf, pos, len) <- add_tag 0x06 (length EC_PUBLIC_KEY_OID) (Some EC_PUBLIC_KEY_OID) buf pos len;
  '(buf, pos, len) <- add_tag 0x06 (length oid) (Some oid) buf pos len;
  '(buf, pos, len) <- add_bit_string x y k buf pos len;
  n <- sub pos hl;
  buf <- wr buf (hl - 1) [(N.of_nat n mod 256)%N];
  l <- rd buf (hl - 1);
  Ret (buf, N.to_nat l + hl).

(** ecc_der_util.c:855-889, ecc_der_decode_ecdsa_integer *)
Definition decode_sig_integer (der : list N) (len k : nat) : res (list N * list N * nat) :=
  '(der, len, tl) <- next_tag 2 der len;
  if k + 1 <? tl then Err
  else
    '(der, len, tl) <- (if k <? tl then
                          z <- rd der 0;
                          if negb (z =? 0)%N then Err
                          else der <- skip der 1; len <- sub len 1; tl <- sub tl 1; Ret (der, len, tl)
                        else Ret (der, len, tl));
    d <- rds der tl;
    at_ <- sub k tl;
    sig <- wr (repeat 0%N k) at_ d;
    der <- skip der tl;
    len <- sub len tl;
    Ret (sig, der, len).

(** ecc_der_util.c:958-990, ecc_der_decode_ecdsa_signature *)
Definition decode_signature (der : list N) (k : nat) : res (list N * list N) :=
  '(pos, _, tl) <- next_tag 0x30 der (length der);
  '(r, pos, tl) <- decode_sig_integer pos tl k;
  '(s, pos, tl) <- decode_sig_integer pos tl k;
  if negb (tl =? 0) then Err else Ret (r, s).

(** ecc_der_util.c:917-920: the leading zeros are left out, but not the last byte. *)
Fixpoint trim (l : list N) : list N :=
  match l with
  | x :: t => match t with [] => l | _ :: _ => if (x =? 0)%N then trim t else l end
  | [] => l
  end.

(** ecc_der_util.c:903-942, ecc_der_encode_ecdsa_integer, for the first [k] bytes of [sig] *)
Definition encode_sig_integer (sig : list N) (k : nat) (buf : list N) (pos len : nat) : res (list N * nat * nat) :=
  let int_len := S pos in
  '(buf, pos, len) <- add_tag 2 0 None buf pos len;
  v <- rds sig k;
  let v := trim v in
  first <- rd v 0;
  '(buf, pos, len) <- (if N.testbit first 7 then
                         buf <- wr buf pos [0%N];
                         len <- sub len 1;
                         n <- rd buf int_len;
                         buf <- wr buf int_len [((n + 1) mod 256)%N];
                         Ret (buf, S pos, len)
                       else Ret (buf, pos, len));
  if len <? length v then Err
  else
    buf <- wr buf pos v;
    len <- sub len (length v);
    n <- rd buf int_len;
    buf <- wr buf int_len [((n + N.of_nat (length v)) mod 256)%N];
    Ret (buf, pos + length v, len).

(** ecc_der_util.c:1004-1048, ecc_der_encode_ecdsa_signature *)
Definition encode_signature (r s : list N) (k : nat) (buf : list N) : res (list N * nat) :=
  if k =? 0 then Err
  else
    '(buf, pos, len) <- add_tag 0x30 0 None buf 0 (length buf);
    '(buf, pos, len) <- encode_sig_integer r k buf pos len;
    '(buf, pos, len) <- encode_sig_integer s k buf pos len;
    total <- sub pos 2;
    buf <- wr buf 1 [(N.of_nat total mod 256)%N];
    if 128 <=? total then
      if len =? 0 then Err
      else
        d <- skip buf 1;
        d <- rds d (total + 1);
        buf <- wr buf 2 d;
        buf <- wr buf 1 [0x81%N];
        Ret (buf, total + 1 + 2)
    else Ret (buf, total + 2).
