(** What the flash log promises: the entries of a history that are safe, those a restart may lose, and their numbers. *)
From Coq Require Import List NArith Bool Arith.
From Verif Require Import Base RamLog_Spec FlashLog_Model.
Import ListNotations.

Definition entries := list (N * list N).

(** [base]: number of the first entry of the list; [safe]: entries a restart does not lose; [risky]: newer entries that
    were not flushed by the user. *)
Record account := Account { base : N; safe : entries; risky : entries }.
Definition live (c : account) : entries := safe c ++ risky c.
Definition next_number (c : account) : N := (base c + N.of_nat (length (live c)))%N.

Inductive spec_step : account -> op -> status -> account -> Prop :=
| Sp_create c e ef w : spec_step c (Create e ef w) Ok (Account (base c) (safe c) (risky c ++ [(next_number c, e)]))
| Sp_flush c ef w : spec_step c (Flush ef w) Ok (Account (base c) (live c) [])
| Sp_clear c ef : spec_step c (Clear ef) Ok (Account (next_number c) [] [])
(** A restart keeps the safe entries and some of the oldest others; numbers start at 0 if nothing is left. *)
| Sp_reboot c p q : risky c = p ++ q ->
    spec_step c Reboot Ok (Account (match safe c ++ p with [] => 0%N | _ => base c end) (safe c ++ p) [])
| Sp_failed c o r : r <> Ok -> spec_step c o r c.

Inductive spec_run : account -> list op -> list status -> account -> Prop :=
| Sp_nil c : spec_run c [] [] c
| Sp_cons c o r c1 os rs c2 : spec_step c o r c1 -> spec_run c1 os rs c2 -> spec_run c (o :: os) (r :: rs) c2.

(** After a write that failed, the device is not restarted before a flush or clear succeeded; no write is partial. *)
Definition pending (d : bool) (o : op) (r : status) : bool :=
  match o, r with
  | Flush _ _, Ok | Clear _, Ok => false
  | _, WriteFailed => true
  | _, _ => d
  end.
Definition whole (o : op) : bool :=
  match o with Create _ _ (WPart _) | Flush _ (WPart _) => false | _ => true end.
Fixpoint calm (d : bool) (os : list op) (rs : list status) : bool :=
  match os, rs with
  | o :: os', r :: rs' => whole o && negb (d && match o with Reboot => true | _ => false end) && calm (pending d o r) os' rs'
  | _, _ => true
  end.
(** Entries are made of bytes. *)
Definition op_bytes (o : op) : Prop := match o with Create e _ _ => bytes_ok e | _ => True end.
