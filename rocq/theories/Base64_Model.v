(** Model of core/asn1/base64_core.c, base64_core_encode.

    Reads and writes are checked as in Der_Model: [Over] is an access outside of a buffer.  The data that is left is a list, so that
    in_pos does not appear.  Pointers are not null. *)
From Coq Require Import List NArith Bool Arith.
From Verif Require Import Base Der_Model.
Import ListNotations.
Local Open Scope N_scope.

(** base64_core.c:14-19 *)
Definition encoding : list N :=
  [ 0x41; 0x42; 0x43; 0x44; 0x45; 0x46; 0x47; 0x48; 0x49; 0x4a; 0x4b; 0x4c; 0x4d; 0x4e; 0x4f; 0x50;
    0x51; 0x52; 0x53; 0x54; 0x55; 0x56; 0x57; 0x58; 0x59; 0x5a; 0x61; 0x62; 0x63; 0x64; 0x65; 0x66;
    0x67; 0x68; 0x69; 0x6a; 0x6b; 0x6c; 0x6d; 0x6e; 0x6f; 0x70; 0x71; 0x72; 0x73; 0x74; 0x75; 0x76;
    0x77; 0x78; 0x79; 0x7a; 0x30; 0x31; 0x32; 0x33; 0x34; 0x35; 0x36; 0x37; 0x38; 0x39; 0x2b; 0x2f ].

(** base64.h:16, BASE64_LENGTH, for a size_t with [SIZE] values, a power of two and at least four *)
Definition base64_length (SIZE n : N) : N := ((((4 * n) mod SIZE / 3 + 3) mod SIZE) / 4 * 4 + 1) mod SIZE.

(** encoded[out_pos++] = base64_core_encoding[i] *)
Definition put (buf : list N) (out : nat) (i : N) : res (list N) := x <- rd encoding (N.to_nat i); wr buf out [x].

(** base64_core.c:39-49, the loop over groups of three bytes: what is left, and the buffer with the position in it. *)
Fixpoint groups (data : list N) (buf : list N) (out : nat) : res (list N * list N * nat) :=
  match data with
  | b1 :: b2 :: b3 :: t =>
    buf <- put buf out (N.shiftr b1 2);
    buf <- put buf (S out) (N.lor (N.shiftl (N.land b1 0x03) 4) (N.shiftr b2 4));
    buf <- put buf (S (S out)) (N.lor (N.shiftl (N.land b2 0x0f) 2) (N.land (N.shiftr b3 6) 0x03));
    buf <- put buf (S (S (S out))) (N.land b3 0x3f);
    groups t buf (S (S (S (S out))))
  | _ => Ret (data, buf, out)
  end.

(** base64_core.c:52-69 *)
Definition rest (data : list N) (buf : list N) (out : nat) : res (list N * nat) :=
  match data with
  | [] => Ret (buf, out)
  | b :: t =>
    buf <- put buf out (N.shiftr b 2);
    let val := N.land (N.shiftl (N.land b 0x03) 4) 255 in
    buf <- match t with
           | b2 :: _ =>
             buf <- put buf (S out) (N.lor val (N.shiftr b2 4));
             put buf (S (S out)) (N.shiftl (N.land b2 0x0f) 2)
           | [] =>
             buf <- put buf (S out) val;
             wr buf (S (S out)) [0x3d]
           end;
    buf <- wr buf (S (S (S out))) [0x3d];
    Ret (buf, S (S (S (S out))))
  end.

(** base64_core.c:22-74, base64_core_encode *)
Definition encode (SIZE : N) (data buf : list N) : res (list N) :=
  if N.of_nat (length buf) <? base64_length SIZE (N.of_nat (length data)) then Err
  else
    '(data, buf, out) <- groups data buf 0;
    '(buf, out) <- rest data buf out;
    wr buf out [0].
