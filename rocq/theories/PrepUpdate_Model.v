(** * Model of the authorized preparation of a firmware update

    core/firmware/authorized_execution_prepare_firmware_update.c:63-193: checking the
    payload, and executing it.

    Modelled: the payload byte by byte; the calls of the update control in order; the
    wait, as a list of what each look at the status and the clock gives.

    External: the update control and the clock, with any results.

    Simplified: pointers are not null; log entries are left out.  A wait for which the list of
    looks is too short has not ended: [None]. *)
From Coq Require Import List NArith Bool Arith.
From Verif Require Import Base.
Import ListNotations.
Local Open Scope nat_scope.

Inductive hash := Sha256 | Sha384 | Sha512.
Inductive code := Ok | NotValid | ExecuteFailed | Error (e : N).

(** hash_get_hash_length *)
Definition hash_len (h : hash) : nat := match h with Sha256 => 32 | Sha384 => 48 | Sha512 => 64 end.

(** struct authorized_execution_prepare_firmware_update_payload (18-23): marker,
    length, type, digest; and
    authorized_execution_prepare_firmware_update_parse_payload (63-104).  The result
    is the image length, the type and the digest. *)
Definition at_ (d : list N) (i : nat) : N := nth i d 0%N.
Definition parse (d : list N) : option (N * hash * list N) :=
  if length d <? 10 then None
  else if negb ((at_ d 0 =? 80)%N && (at_ d 1 =? 85)%N && (at_ d 2 =? 87)%N && (at_ d 3 =? 70)%N) then None
  else
    match (match at_ d 8 with 0 => Some Sha256 | 1 => Some Sha384 | 2 => Some Sha512 | _ => None end)%N with
    | None => None
    | Some h =>
        if length d - 9 =? hash_len h
        then Some ((at_ d 4 + 256 * at_ d 5 + 65536 * at_ d 6 + 16777216 * at_ d 7)%N, h, skipn 9 d)
        else None
    end.

(** UPDATE_STATUS_SUCCESS, UPDATE_STATUS_STARTING or _STAGING_PREP, any other *)
Inductive update_status := Success | InProgress | Other.
Inductive call := PrepareStaging (len : N) | SetDigest (h : hash) (digest : list N).

(** The update control and the clock: the result of starting the timeout, of preparing,
    of each look (with whether the timeout has passed) and of setting the digest; 0
    is success. *)
Record env := Env { e_timeout : N; e_prepare : N; e_looks : list (update_status * bool); e_digest : N }.

(** The loop (145-151): the last status *)
Fixpoint wait (timeout : bool) (l : list (update_status * bool)) : option update_status :=
  match l with
  | [] => None
  | (InProgress, expired) :: l => if negb timeout || negb expired then wait timeout l else Some InProgress
  | (s, _) :: _ => Some s
  end.

(** authorized_execution_prepare_firmware_update_execute (106-181) *)
Definition execute (timeout : bool) (e : env) (d : list N) : option code * list call :=
  match parse d with
  | None => (Some NotValid, [])
  | Some (n, h, digest) =>
      if timeout && negb (e_timeout e =? 0)%N then (Some (Error (e_timeout e)), [])
      else if negb (e_prepare e =? 0)%N then (Some (Error (e_prepare e)), [PrepareStaging n])
      else
        match wait timeout (e_looks e) with
        | None => (None, [PrepareStaging n])
        | Some Success =>
            (Some (if (e_digest e =? 0)%N then Ok else Error (e_digest e)), [PrepareStaging n; SetDigest h digest])
        | Some _ => (Some ExecuteFailed, [PrepareStaging n])
        end
  end.

(** authorized_execution_prepare_firmware_update_validate_data (183-193) *)
Definition validate (d : list N) : code := match parse d with Some _ => Ok | None => NotValid end.
