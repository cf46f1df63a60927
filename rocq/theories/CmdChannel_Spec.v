(** Vocabulary for the command channel: what is on the wire for a message. *)
From Coq Require Import List NArith Bool Arith.
From Verif Require Import Base CmdChannel_Model.
Import ListNotations.

(** The packets of task [i], in the order in which they were sent. *)
Definition mine (i : nat) (w : list (nat * packet)) : list packet := map snd (filter (fun x => Nat.eqb (fst x) i) w).

(** [ps] are the first packets of a message [m]: to its destination, [psize] bytes each and only at
    the end less, and [rest] is what is left of the message. *)
Definition cut (m : message) (ps : list packet) (rest : list N) : Prop :=
  concat (map p_data ps) ++ rest = data m /\
  forall j p, nth_error ps j = Some p ->
    p_dest p = dest m /\ p_data p <> [] /\ length (p_data p) = Nat.min (psize m) (length (data m) - j * psize m).

(** Nobody else's packet is between two packets of task [i]. *)
Definition contiguous (i : nat) (w : list (nat * packet)) : Prop :=
  exists l1 l2 ps, w = l1 ++ map (pair i) ps ++ l2 /\ mine i l1 = [] /\ mine i l2 = [].

(** Reachable by some schedule. *)
Definition reachable (limit : nat) (msgs : nat -> message) (sched : list action) (s : chan) (bad : bool) : Prop :=
  run limit msgs sched init false = Some (s, bad).

(** The bus is never busy when task [i] sends. *)
Definition never_busy (i : nat) (sched : list action) : Prop := ~ In (Send i (Busy false)) sched.

(** A packet of a sequence is processed if and only if it is no overflow and does not follow one. *)
Definition after_overflow (l : list pstate) (k : nat) : Prop := exists j, k = S j /\ nth_error l j = Some Overflow.
