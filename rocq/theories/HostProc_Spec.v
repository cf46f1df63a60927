(** Vocabulary for the protection of a host processor, independent of how the flows are written. *)
From Coq Require Import List NArith Bool.
From Verif Require Import HostFw_Model HostProc_Model.
Import ListNotations.

Section Spec.

Variables (P C Img : Type).
Variable lookup : P -> C -> option (list region).
Variable valid : bool -> P -> C -> bool.
Variable same : P -> P -> C -> bool.
Variable empty : P -> bool.
Variable applied : Img -> C.
Variable c : config.

Notation st := (st P C Img).
Notation oracle := (oracle C).
Notation op := (op P C Img).
Notation step := (step P C Img lookup valid same empty applied c).
Notation power_on := (power_on P C Img lookup valid same empty c).

Definition list_of {A} (x : option A) : list A := match x with Some a => [a] | None => [] end.

(** The PFMs the device has at some moment, active or pending, and its recovery image. *)
Definition pfms (s : st) : list P := list_of (act s) ++ list_of (pend s).
Definition images (s : st) : list Img := list_of (rec s).

(** The chip the host boots from and cannot change. *)
Definition boot_chip (s : st) : C := chip s (f_ro s).

(** The content passed verification with one of the PFMs. *)
Definition verified (ps : list P) (v : C) : Prop :=
  exists p full, In p ps /\ lookup p v <> None /\ valid full p v = true.

(** The content is a recovery image programmed onto an erased chip. *)
Definition recovered (is : list Img) (v : C) : Prop := exists i, In i is /\ v = applied i.

(** The regions are among those one of the PFMs defines as writable for this content. *)
Definition granted (ps : list P) (v : C) (l : list region) : Prop :=
  l = [] \/ exists p r n, In p ps /\ lookup p v = Some r /\ l = firstn n r.

(** The device just started: the filter separates the two chips and nothing was verified ahead. *)
Definition booted (s : st) : Prop := f_mode s = Dual /\ preval s = PNone.

(** The two operations that write the boot chip without verification are left out when they go
    wrong: applying a recovery image that fails part way, and the rollback without a PFM. *)
Definition tidy (x : op) (s s' : st) (r : option status) : Prop :=
  match x with
  | ApplyRecovery => r = Some SOk \/ forall b, chip s' b = chip s b
  | Rollback _ => act s <> None \/ byp s = true
  | _ => True
  end.

(** Everything that can happen after a power-on that succeeded: any operations in any order, with any
    failures, with the PFMs [ps] and the recovery images [is] the device had along the way. *)
Inductive since_power_on : list P -> list Img -> st -> Prop :=
  | started : forall (o : oracle) s s',
      booted s -> power_on o s = (s', Some SOk) -> since_power_on (pfms s) [] s'
  | stepped : forall ps is s (x : op) (o : oracle) s' r,
      since_power_on ps is s -> step o x s = (s', Some r) -> tidy x s s' (Some r) ->
      since_power_on (pfms s ++ ps) (images s ++ is) s'.

(** The same with the PFMs only changing the way the PFM manager lets them: pending PFMs come and go,
    the active one only changes by activation, which does not fail, or by being removed. *)
Definition orderly (x : op) (s : st) : Prop :=
  match x with
  | PfmsAre a _ _ => a = act s \/ a = None
  | _ => True
  end.

Inductive in_order : list Img -> st -> Prop :=
  | in_order_started : forall (o : oracle) s s',
      booted s -> act_ok o = true -> power_on o s = (s', Some SOk) -> in_order [] s'
  | in_order_stepped : forall is s (x : op) (o : oracle) s' r,
      in_order is s -> act_ok o = true -> step o x s = (s', Some r) ->
      tidy x s s' (Some r) -> orderly x s ->
      in_order (images s ++ is) s'.

(** No call to another component fails. *)
Definition no_faults (o : oracle) : Prop :=
  (forall n, a_err (ask o n) = false) /\ fuel o <> 0 /\ act_ok o = true.

End Spec.
