(** * What is known about the authorization from the calls alone *)
From Coq Require Import List NArith Bool.
From Verif Require Import Base Impactful_Model.
Import ListNotations.
Local Open Scope N_scope.

(** The time that has passed. *)
Fixpoint elapsed (l : list event) : N :=
  match l with [] => 0 | Tick :: l => 1 + elapsed l | _ :: l => elapsed l end.

Definition authorizes (e : event) : Prop := exists d, e = Authorize d true.

(** The last authorization that worked was [before], lasts for [d] (0: for
    ever), and [after] it other things happened. *)
Definition last_authorization (l before : list event) (d : N) (after : list event) : Prop :=
  l = before ++ Authorize d true :: after /\ ~ Exists authorizes after.

(** No call of reset_authorization and no callback of the timer is running,
    and no timer is due. *)
Definition quiet (s : state) : Prop :=
  (forall i, task s i = Idle) /\ (forall t, timer s = Some t -> now s < t).

(** Some task still has something to do, and no task can go on. *)
Definition deadlocked (s : locks) : Prop :=
  (exists i, left_to_do s i <> []) /\ forall i, advance s i = None.
