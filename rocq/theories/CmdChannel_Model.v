(** Model of core/cmd_interface/cmd_channel.c: sending messages as packets over a channel that several
    tasks share, and receiving packets after an overflow.

    Tasks are interleaved at the points where the channel lock is taken or given up: a task gives it up
    in the middle of a message while the bus is busy.  Simplifications: the result of the driver's
    [send_packet] and of the clock are part of the schedule; the lock is given up together with the
    last attempt to send; the bytes of a packet beyond its size are not modelled. *)
From Coq Require Import List NArith Bool Arith.
From Verif Require Import Base.
Import ListNotations.

(** cmd_channel.h:34-43 *)
Record packet := { p_dest : N; p_data : list N }.
(** cmd_channel.h:47-52 *)
Record message := { dest : N; psize : nat; data : list N }.

Inductive status := Ok | Expired | TxTimeout | SendFail.

(** A task that sends a message: before it has the lock, while it holds it, after it gave it up because
    of a busy bus (with the bytes that are left), at the end. *)
Inductive phase := Ready | Holding (rest : list N) | Sleeping (rest : list N) | Finished (st : status).

Record chan := { lock : option nat; phases : nat -> phase; wire : list (nat * packet) }.

Definition init : chan := {| lock := None; phases := fun _ => Ready; wire := [] |}.

(** What [send_packet] returns; [Busy] with whether the time for it is over. *)
Inductive outcome := Sent | Busy (over : bool) | Error.
(** A task takes the lock (with whether the time for the answer is over), or sends a packet. *)
Inductive action := Lock (i : nat) (over : bool) | Send (i : nat) (o : outcome).

Definition set_phase (f : nat -> phase) (i : nat) (p : phase) : nat -> phase :=
  fun j => if Nat.eqb j i then p else f j.

Definition with_phase (i : nat) (p : phase) (l : option nat) (s : chan) : chan :=
  {| lock := l; phases := set_phase (phases s) i p; wire := wire s |}.

(** cmd_channel.c:160-220; [None]: the action is not possible in this state.  The flag is set when the
    packet buffer of [limit] bytes is overrun. *)
Definition step (limit : nat) (msgs : nat -> message) (a : action) (s : chan) : option (chan * bool) :=
  match a with
  | Lock i over =>
    match lock s, phases s i with
    | None, Ready =>
      if over then Some (with_phase i (Finished Expired) None s, false)
      else match data (msgs i) with
           | [] => Some (with_phase i (Finished Ok) None s, false)
           | _ => Some (with_phase i (Holding (data (msgs i))) (Some i) s, false)
           end
    | None, Sleeping rest => Some (with_phase i (Holding rest) (Some i) s, false)
    | _, _ => None
    end
  | Send i o =>
    match lock s, phases s i with
    | Some k, Holding rest =>
      if Nat.eqb k i then
        let n := Nat.min (psize (msgs i)) (length rest) in
        let bad := Nat.ltb limit n in
        match o with
        | Sent =>
          let s' := {| lock := lock s; phases := phases s;
                       wire := wire s ++ [(i, {| p_dest := dest (msgs i); p_data := firstn n rest |})] |} in
          Some (match skipn n rest with
                | [] => with_phase i (Finished Ok) None s'
                | rest' => with_phase i (Holding rest') (Some i) s'
                end, bad)
        | Busy true => Some (with_phase i (Finished TxTimeout) None s, bad)
        | Busy false => Some (with_phase i (Sleeping rest) None s, bad)
        | Error => Some (with_phase i (Finished SendFail) None s, bad)
        end
      else None
    | _, _ => None
    end
  end.

Fixpoint run (limit : nat) (msgs : nat -> message) (l : list action) (s : chan) (bad : bool) : option (chan * bool) :=
  match l with
  | [] => Some (s, bad)
  | a :: t => match step limit msgs a s with
              | Some (s', b) => run limit msgs t s' (bad || b)
              | None => None
              end
  end.

(** ** Receiving *)

(** cmd_channel.h:23-28 *)
Inductive pstate := Valid | RxError | Overflow.
(** What the receiver does with a packet. *)
Inductive verdict := Processed | Ignored | Rejected.

(** cmd_channel.c:250-276; the first argument is [state->overflow]. *)
Definition receive (ov : bool) (p : pstate) : bool * verdict :=
  match p with
  | Overflow => (true, Rejected)
  | _ => if ov then (false, Ignored) else (false, Processed)
  end.

Fixpoint receive_all (ov : bool) (l : list pstate) : list verdict :=
  match l with
  | [] => []
  | p :: t => let '(ov', v) := receive ov p in v :: receive_all ov' t
  end.
