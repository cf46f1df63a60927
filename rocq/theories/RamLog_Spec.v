(** What a log is to its user: a list of numbered entries. *)
From Coq Require Import List NArith Bool Arith.
From Verif Require Import Base RamLog_Model.
Import ListNotations.

(** The last [n] elements of a list. *)
Definition lastn {A} (n : nat) (l : list A) : list A := skipn (length l - n) l.

(** The entries created since the last clear, with their identifiers, and the next identifier.
    Entries of the wrong length are refused. *)
Definition spec_step (entry_len : nat) (st : N * list (N * list N)) (op : ramlog_op) : N * list (N * list N) :=
  let '(next, es) := st in
  match op with
  | Create e => if length e =? entry_len then (((next + 1) mod 2 ^ 32)%N, es ++ [(next, e)]) else st
  | Clear => (next, [])
  end.
Definition spec_run (entry_len : nat) (ops : list ramlog_op) : N * list (N * list N) :=
  fold_left (spec_step entry_len) ops (0%N, []).

(** External format of one entry: marker 0xCB, total length (16 bits), identifier (32 bits), data. *)
Definition encode (e : N * list N) : list N :=
  0xCB%N :: le16 (N.of_nat (7 + length (snd e))) ++ le32 (fst e) ++ snd e.
Definition stream (es : list (N * list N)) : list N := concat (map encode es).
