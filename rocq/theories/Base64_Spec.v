(** Base 64 as RFC 4648 describes it in section 4: the bits of the data are cut into groups of six, with zero bits added to the last group;
    each group is a character of the alphabet in table 1; [=] characters fill the last four characters. *)
From Coq Require Import List NArith Bool Arith.
Import ListNotations.

(** The bits of a byte, the most significant one first, and the number for some bits. *)
Definition bits (b : N) : list bool := map (N.testbit b) [7; 6; 5; 4; 3; 2; 1; 0]%N.
Definition number (l : list bool) : N := fold_left (fun (a : N) (b : bool) => (2 * a + (if b then 1 else 0))%N) l 0%N.

(** Groups of six. *)
Fixpoint sextets (fuel : nat) (l : list bool) : list N :=
  match fuel, l with
  | O, _ | _, [] => []
  | S f, _ => number (firstn 6 (l ++ repeat false 5)) :: sextets f (skipn 6 l)
  end.

(** Table 1: A to Z, a to z, 0 to 9, + and /. *)
Definition character (v : N) : N :=
  (if v <? 26 then 65 + v else if v <? 52 then 97 + (v - 26) else if v <? 62 then 48 + (v - 52) else if v =? 62 then 43 else 47)%N.

Definition base64 (data : list N) : list N :=
  let l := concat (map bits data) in
  let c := map character (sextets (length l) l) in
  c ++ repeat 61%N ((4 - length c mod 4) mod 4).

(** The inverse of the alphabet, and the bytes in some characters. *)
Definition decoded_character (c : N) : option N :=
  (if (65 <=? c) && (c <=? 90) then Some (c - 65) else if (97 <=? c) && (c <=? 122) then Some (c - 97 + 26)
   else if (48 <=? c) && (c <=? 57) then Some (c - 48 + 52) else if c =? 43 then Some 62 else if c =? 47 then Some 63 else None)%N.

Fixpoint octets (fuel : nat) (l : list bool) : list N :=
  match fuel with
  | O => []
  | S f => if length l <? 8 then [] else number (firstn 8 l) :: octets f (skipn 8 l)
  end.

Definition low6 (v : N) : list bool := map (N.testbit v) [5; 4; 3; 2; 1; 0]%N.

Definition decoded (text : list N) : list N :=
  let l := concat (map (fun c => match decoded_character c with Some v => low6 v | None => [] end) text) in
  octets (length l) l.
