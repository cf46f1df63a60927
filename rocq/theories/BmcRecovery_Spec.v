(** * The ladder of recovery

    A failure is a boot from the second flash (chip select 1) while the host
    is in reset or has just left it.  It is answered, one rung at a time, by
    resetting the host some number of times, then restoring its read/write
    data, then a rollback, then the recovery image; a rung that is not
    available is left at once for the next. *)
From Coq Require Import List ZArith Bool.
From Verif Require Import BmcRecovery_Model.
Import ListNotations.

Inductive rung := Resets (left : nat) | Images | Rollbacks | OnlyRollback.

(** A rung that cannot help. *)
Definition no_rw (c : code) : bool :=
  match c with NoActiveRwData | RwRecoveryUnsupported => true | _ => false end.
Definition no_rollback (c : code) : bool :=
  match c with BadSignature | BadImageHash | UnexpectedValue | UnsupportedVersion | NoRollback
  | RollbackDirty => true | _ => false end.
Definition no_image (c : code) : bool :=
  match c with RecoveryUnsupported | NoRecoveryImage => true | _ => false end.

(** The answer to a failure: the next rung, the status and the operations. *)
Definition climb_image (a : answers) : rung * code * list action :=
  (if no_image (a_image a) then OnlyRollback else Images, a_image a, [ApplyImage]).
Definition climb_rollback (a : answers) : rung * code * list action :=
  if no_rollback (a_rollback a) then let '(r, c, l) := climb_image a in (r, c, Rollback :: l)
  else (Images, a_rollback a, [Rollback]).
Definition climb_rw (a : answers) : rung * code * list action :=
  if no_rw (a_rw a) then let '(r, c, l) := climb_rollback a in (r, c, RecoverRw :: l)
  else (Rollbacks, a_rw a, [RecoverRw]).

Definition climb (r : rung) (a : answers) : rung * code * list action :=
  match r with
  | Resets (S n) => (Resets n, Ok, [Pulse])
  | Resets 0 => climb_rw a
  | Rollbacks => climb_rollback a
  | Images => climb_image a
  | OnlyRollback => (OnlyRollback, a_rollback a, [Rollback])
  end.

(** The bottom of the ladder for a setting (negative ones skip rungs). *)
Definition bottom (min_wdt : Z) : rung :=
  if (0 <=? min_wdt)%Z then Resets (Z.to_nat min_wdt)
  else if (min_wdt =? -1)%Z then Rollbacks else Images.

(** An operation that failed is followed by a reset of the host. *)
Definition with_pulse (c : code) (l : list action) : list action :=
  match c with Ok => l | _ => l ++ [Pulse] end.

(** The phase of the boot, and the rung. *)
Inductive phase := Up | Down | Leaving | Answered.

Definition ladder_step (min_wdt : Z) (s : phase * rung) (e : event) : (phase * rung) * (list action * code) :=
  let '(p, r) := s in
  match e, p with
  | HostReset, (Up | Leaving) => ((Down, r), ([Irq true], Ok))
  | OutOfReset, (Down | Answered) => ((Leaving, r), ([], Ok))
  | Cs0, (Up | Leaving) => ((Up, r), ([Irq false], Ok))
  | Cs0, Answered => ((Down, r), ([], Ok))
  | Cs1 _, Up => ((Up, r), ([Irq false], Ok))
  | Cs1 a, (Down | Leaving) =>
      let '(r', c, l) := climb (if a_expired a then bottom min_wdt else r) a in
      ((Answered, r'), (with_pulse c l, match c with Ok => a_timer a | _ => c end))
  | _, _ => ((p, r), ([], Ok))
  end.

Fixpoint ladder (min_wdt : Z) (s : phase * rung) (h : list event) : list (list action * code) :=
  match h with
  | [] => []
  | e :: h => let '(s, o) := ladder_step min_wdt s e in o :: ladder min_wdt s h
  end.

(** Operations on the host, without the interrupt control. *)
Definition on_host (l : list action) : list action :=
  List.filter (fun x => match x with Irq _ => false | _ => true end) l.

(** The operations since the timeout last expired, over a history and its
    outcomes.  An event that answers a failure when the timeout has expired
    starts afresh. *)
Fixpoint episode (acc : list action) (h : list event) (os : list (list action * code)) : list action :=
  match h, os with
  | e :: h, (l, _) :: os =>
      let acc := match e, on_host l with Cs1 a, _ :: _ => if a_expired a then [] else acc | _, _ => acc end in
      episode (acc ++ on_host l) h os
  | _, _ => acc
  end.

(** How many failures were answered since then, and whether a recovery image
    was found missing. *)
Fixpoint answered (n : nat) (h : list event) (os : list (list action * code)) : nat :=
  match h, os with
  | e :: h, (l, _) :: os =>
      match e, on_host l with
      | Cs1 a, _ :: _ => answered (if a_expired a then 1 else S n) h os
      | _, _ => answered n h os
      end
  | _, _ => n
  end.

Fixpoint missing (m : bool) (h : list event) (os : list (list action * code)) : bool :=
  match h, os with
  | e :: h, (l, _) :: os =>
      match e, on_host l with
      | Cs1 a, _ :: _ =>
          missing ((if a_expired a then false else m) ||
                   existsb (fun x => match x with ApplyImage => no_image (a_image a) | _ => false end) l) h os
      | _, _ => missing m h os
      end
  | _, _ => m
  end.
