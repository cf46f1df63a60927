(** What the properties of intrusion detection talk about. *)
From Coq Require Import List Bool.
From Verif Require Import Intrusion_Model.
Import ListNotations.

(** Calls that find that there is no intrusion, in a state with the recorded bit [b] *)
Definition clears (b : bool) (o : op) : bool :=
  match o with
  | Reset (Some false) Done true => true
  | Check _ Answers true => negb b
  | Notify On_no_intrusion true => true
  | _ => false
  end.
(** Calls that report an intrusion, or that the state is not known *)
Definition alarms (b : bool) (o : op) : bool :=
  match o with
  | Handle _ _ => true
  | Check _ Answers _ => b
  | Check _ Fails _ => true
  | Check async Deferred _ => negb async
  | Notify On_intrusion _ | Notify On_error _ => true
  | Restart _ => true
  | _ => false
  end.
(** The asynchronous notification is not used, and the recorded bit is always set when an intrusion is handled. *)
Definition sound (o : op) : Prop :=
  match o with
  | Notify _ _ => False
  | Handle _ (Failed b) => b = true
  | _ => True
  end.
Definition is_reset (o : op) : bool := match o with Reset _ _ _ => true | _ => false end.
