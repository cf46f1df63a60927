(** Vocabulary for the TPM storage: an ideal TPM storage and what the flash holds for it. *)
From Coq Require Import List NArith Bool Arith.
From Verif Require Import Base Tpm_Model.
Import ListNotations.
Local Open Scope N_scope.

(** The header fits into a segment and a segment into a block; there is a block for the header. *)
Definition usable (c : config) : Prop := (13 <= seg c)%nat /\ (seg c <= limit c)%nat /\ (0 < nb c)%nat.

(** The working memory has the size of a segment, and so has whatever is stored as the header. *)
Definition sized (c : config) (s : tpm) : Prop :=
  length (buffer s) = seg c /\ forall b, store s O = Some b -> length b = seg c.

(** No access fails. *)
Definition reliable (E : env) : Prop := forall t, f_read (E t) = true /\ f_write (E t) = Written.

(** An ideal TPM: a counter, whether a clear is pending, and the segments. *)
Record ideal := { cnt : N; pending : bool; segment : nat -> option (list N) }.

Definition blank (c : config) : list N := repeat 255 (seg c).

(** A restart of the host or of the device performs a pending clear. *)
Definition restart (c : config) (a : ideal) : ideal :=
  if pending a then
    {| cnt := 0; pending := false; segment := fun i => if Nat.ltb (S i) (nb c) then Some (blank c) else segment a i |}
  else a.

Definition ideal_step (c : config) (o : op) (a : ideal) : result * ideal :=
  match o with
  | Boot => (Status true, restart c a)
  | Reset => (Silent, restart c a)
  | Schedule => (Status true, {| cnt := cnt a; pending := true; segment := segment a |})
  | Increment => (Status true, {| cnt := (cnt a + 1) mod 2 ^ 64; pending := pending a; segment := segment a |})
  | GetCounter => (Value (cnt a), a)
  | Put i d =>
    if Nat.ltb (S i) (nb c) && Nat.leb (length d) (limit c)
    then (Status true, {| cnt := cnt a; pending := pending a; segment := fun j => if Nat.eqb j i then Some d else segment a j |})
    else (Status false, a)
  | Get i len m =>
    if Nat.ltb (S i) (nb c) then
      (match segment a i with
       | Some d => Bytes (firstn len d)
       | None => if m then Bytes (repeat 255 len) else Status false
       end, a)
    else (Status false, a)
  end.

Fixpoint ideal_run (c : config) (l : list op) (a : ideal) : list result * ideal :=
  match l with
  | [] => ([], a)
  | o :: t => let '(r, a) := ideal_step c o a in let '(rs, a) := ideal_run c t a in (r :: rs, a)
  end.

(** The flash holds this TPM. *)
Definition valid (b : list N) : Prop := magic b = tpm_magic.
Definition holds (f : blocks) (a : ideal) : Prop :=
  (exists b, f O = Some b /\ valid b /\ counter b = cnt a /\ (clear b = 1 <-> pending a = true)) /\
  (forall i, f (S i) = segment a i).

(** The stored header asks for a clear. *)
Definition asks_clear (f : blocks) : Prop := exists b, f O = Some b /\ valid b /\ clear b = 1.

(** The power fails before access number [t]. *)
Definition dies (t : nat) : env := fun k => if Nat.ltb k t then {| f_read := true; f_write := Written |} else {| f_read := false; f_write := Kept |}.

(** Reads work and writes are atomic: a write that fails leaves the old or the new data. *)
Definition atomic (E : env) : Prop := forall t, f_read (E t) = true /\ f_write (E t) <> Lost.

(** How often the counter was to be incremented, and how often with success. *)
Fixpoint tries (l : list op) : N :=
  match l with [] => 0 | Increment :: t => 1 + tries t | _ :: t => tries t end.
Fixpoint wins (l : list op) (rs : list result) : N :=
  match l, rs with
  | Increment :: t, Status true :: rt => 1 + wins t rt
  | _ :: t, _ :: rt => wins t rt
  | _, _ => 0
  end.
