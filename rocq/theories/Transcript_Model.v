(** Model of core/spdm/spdm_transcript_manager.c: the hashes of SPDM messages that signatures and session keys are made of.

    The hash engines are modelled after core/crypto/hash_mbedtls.c and projects/linux/crypto/hash_openssl.c: an engine has at most one hash
    in progress, and refuses to start another one; [HASH] is an arbitrary hash function.  Every call of an engine may fail; a failed update
    may have taken part of the data ([junk]).  An access of a session or an engine that is not there is the outcome [None] of a step.
    Simplifications: pointers are not null; algorithms are numbers; the size of the buffer for the hash is part of whether the engine
    succeeds. *)
From Coq Require Import List NArith Bool Arith.
From Verif Require Import Base.
Import ListNotations.

(** spdm_transcript_manager.h:138-144, enum spdm_transcript_manager_context_type, with something else *)
Inductive kind := KVca | KM1M2 | KL1L2 | KTh | KOther.

(** spdm_transcript_manager.h:59-62, struct spdm_transcript_manager_hash_context *)
Record hctx := HCtx { h_idx : nat; h_started : bool }.
(** spdm_transcript_manager.h:104-132; sessions are pairs of TH and L1/L2; [s_eng] is what the hash engines are doing: the algorithm and the
    data so far. *)
Record state := St { s_eng : list (option (N * list N)); s_algo : option N; s_vca : list N; s_m : hctx; s_l : hctx; s_sess : list (hctx * hctx);
  s_count : nat; s_ver : N }.
Definition set_eng (s : state) v := St v (s_algo s) (s_vca s) (s_m s) (s_l s) (s_sess s) (s_count s) (s_ver s).
Definition set_algo (s : state) v := St (s_eng s) v (s_vca s) (s_m s) (s_l s) (s_sess s) (s_count s) (s_ver s).
Definition set_vca (s : state) v := St (s_eng s) (s_algo s) v (s_m s) (s_l s) (s_sess s) (s_count s) (s_ver s).
Definition set_m (s : state) v := St (s_eng s) (s_algo s) (s_vca s) v (s_l s) (s_sess s) (s_count s) (s_ver s).
Definition set_l (s : state) v := St (s_eng s) (s_algo s) (s_vca s) (s_m s) v (s_sess s) (s_count s) (s_ver s).
Definition set_sess (s : state) v := St (s_eng s) (s_algo s) (s_vca s) (s_m s) (s_l s) v (s_count s) (s_ver s).
Definition set_ver (s : state) v := St (s_eng s) (s_algo s) (s_vca s) (s_m s) (s_l s) (s_sess s) (s_count s) v.

(** The contexts, and their places in the state *)
Inductive cname := CM1M2 | CL1L2 | CTh (i : nat) | CSess (i : nat).
Definition ctx_of (s : state) (c : cname) : option hctx :=
  match c with
  | CM1M2 => Some (s_m s)
  | CL1L2 => Some (s_l s)
  | CTh i => option_map fst (nth_error (s_sess s) i)
  | CSess i => option_map snd (nth_error (s_sess s) i)
  end.
Definition put_ctx (s : state) (c : cname) (h : hctx) : state :=
  match c with
  | CM1M2 => set_m s h
  | CL1L2 => set_l s h
  | CTh i => match nth_error (s_sess s) i with Some (_, l) => set_sess s (upd (s_sess s) i (h, l)) | None => s end
  | CSess i => match nth_error (s_sess s) i with Some (t, _) => set_sess s (upd (s_sess s) i (t, h)) | None => s end
  end.

Section Transcript.
(** SPDM_MAX_SESSION_COUNT and SPDM_TRANSCRIPT_MANAGER_VCA_BUFFER_MAX_SIZE, spdm_transcript_manager.h:17-29 *)
Variables MAXS VCAMAX : nat.
Variable HASH : N -> list N -> list N.

(** spdm_transcript_manager.c:591-644, spdm_transcript_manager_init_state, with [n] hash engines; the indices of sessions without engines
    stay zero. *)
Definition init (n : nat) : option state :=
  if n <? 2 then None
  else
    let count := Nat.min ((n - 2) / 2) MAXS in
    Some (St (repeat None n) None [] (HCtx 0 false) (HCtx 1 false)
      (map (fun i => if i <? count then (HCtx (3 + 2 * i) false, HCtx (2 + 2 * i) false) else (HCtx 0 false, HCtx 0 false)) (seq 0 MAXS)) count 0).

(** What the engines do during an update: whether the hash is started, and whether adding the VCA and the message fails, and how. *)
Record fault := Fault { f_start : bool; f_vca : option (list N); f_msg : option (list N) }.

(** hash_mbedtls.c: start, update (failing with [Some junk]) and cancel of an engine; the first component is whether it succeeded. *)
Definition eng_start (algo : option N) (ok : bool) (e : option (N * list N)) : bool * option (N * list N) :=
  match algo, e with
  | Some a, None => if ok then (true, Some (a, [])) else (false, None)
  | _, _ => (false, e)
  end.
Definition eng_update (data : list N) (f : option (list N)) (e : option (N * list N)) : bool * option (N * list N) :=
  match e, f with
  | Some (a, b), None => (true, Some (a, b ++ data))
  | Some (a, b), Some junk => (false, Some (a, b ++ junk))
  | None, _ => (false, None)
  end.

(** An engine operation at an index *)
Definition on_engine (s : state) (i : nat) (f : option (N * list N) -> bool * option (N * list N)) : option (state * bool) :=
  match nth_error (s_eng s) i with
  | None => None
  | Some e => let '(ok, e) := f e in Some (set_eng s (upd (s_eng s) i e), ok)
  end.

(** spdm_transcript_manager.c:27-67, spdm_transcript_manager_add_msg *)
Definition add_msg (s : state) (c : cname) (msg : list N) (add_vca : bool) (f : fault) : option (state * bool) :=
  match ctx_of s c with
  | None => None
  | Some h =>
    let msg_part (s : state) := on_engine s (h_idx h) (eng_update msg (f_msg f)) in
    if h_started h then msg_part s
    else
      match on_engine s (h_idx h) (eng_start (s_algo s) (f_start f)) with
      | None => None
      | Some (s, false) => Some (s, false)
      | Some (s, true) =>
        let s := put_ctx s c (HCtx (h_idx h) true) in
        if add_vca then
          match on_engine s (h_idx h) (eng_update (s_vca s) (f_vca f)) with
          | Some (s, true) => msg_part s
          | r => r
          end
        else msg_part s
      end
  end.

(** spdm_transcript_manager.c:230-291: resetting a hash context *)
Definition reset_ctx (s : state) (c : cname) : option state :=
  match ctx_of s c with
  | None => None
  | Some h =>
    if h_started h then
      match on_engine s (h_idx h) (fun _ => (true, None)) with
      | Some (s, _) => Some (put_ctx s c (HCtx (h_idx h) false))
      | None => None
      end
    else Some s
  end.

(** spdm_transcript_manager.c:293-310, spdm_transcript_manager_reset_session_transcript *)
Definition reset_session (s : state) (i : nat) : option state :=
  if s_count s <=? i then Some s
  else match reset_ctx s (CSess i) with Some s => reset_ctx s (CTh i) | None => None end.

(** spdm_transcript_manager.c:378-380 *)
Fixpoint reset_sessions (k i : nat) (s : state) : option state :=
  match k with
  | O => Some s
  | S k => match reset_session s i with Some s => reset_sessions k (S i) s | None => None end
  end.

Inductive op :=
| SetAlgo (a : option N)
| SetVersion (v : N)
| Update (k : kind) (msg : list N) (session : bool) (i : nat) (f : fault)
| GetHash (k : kind) (finish session : bool) (i : nat) (engine : bool)
| ResetContext (k : kind) (session : bool) (i : nat)
| ResetSession (i : nat)
| ResetAll.

Inductive result := ROk | RErr | RHash (h : list N).

(** spdm_transcript_manager.c:414-463, spdm_transcript_manager_update, with the functions of each context, lines 80-202 *)
Definition update (s : state) (k : kind) (msg : list N) (session : bool) (i : nat) (f : fault) : option (state * bool) :=
  if length msg =? 0 then Some (s, false)
  else
    match k with
    | KVca => if VCAMAX - length (s_vca s) <? length msg then Some (s, false) else Some (set_vca s (s_vca s ++ msg), true)
    | KM1M2 => add_msg s CM1M2 msg true f
    | KL1L2 =>
      if session && (MAXS <=? i) then Some (s, false)
      else add_msg s (if session then CSess i else CL1L2) msg (0x11 <? s_ver s)%N f
    | KTh =>
      if session && (MAXS <=? i) then Some (s, false)
      else add_msg s (CTh i) msg true f
    | KOther => Some (s, false)
    end.

(** spdm_transcript_manager.c:465-534, spdm_transcript_manager_get_hash; [engine] is whether the engine succeeds. *)
Definition get_hash (s : state) (k : kind) (finish session : bool) (i : nat) (engine : bool) : option (state * result) :=
  if (match k with KM1M2 => session | KTh => negb session | _ => false end) then Some (s, RErr)
  else if session && (s_count s <=? i) then Some (s, RErr)
  else
    match (match k with KM1M2 => Some CM1M2 | KL1L2 => Some (if session then CSess i else CL1L2) | KTh => Some (CTh i) | _ => None end) with
    | None => Some (s, RErr)
    | Some c =>
      match ctx_of s c with
      | None => None
      | Some h =>
        if negb (h_started h) then Some (s, RErr)
        else
          match nth_error (s_eng s) (h_idx h) with
          | None => None
          | Some None => Some (s, RErr)
          | Some (Some (a, b)) =>
            if negb engine then Some (s, RErr)
            else if finish then Some (put_ctx (set_eng s (upd (s_eng s) (h_idx h) None)) c (HCtx (h_idx h) false), RHash (HASH a b))
            else Some (s, RHash (HASH a b))
          end
      end
    end.

(** spdm_transcript_manager.c:312-360, spdm_transcript_manager_reset_context *)
Definition reset_context (s : state) (k : kind) (session : bool) (i : nat) : option state :=
  if (match k with KM1M2 => session | KTh => negb session | _ => false end) then Some s
  else if session && (s_count s <=? i) then Some s
  else
    match k with
    | KVca => Some (set_vca s [])
    | KM1M2 => reset_ctx s CM1M2
    | KL1L2 => reset_ctx s (if session then CSess i else CL1L2)
    | KTh => reset_ctx s (CTh i)
    | KOther => Some s
    end.

(** spdm_transcript_manager.c:362-382, spdm_transcript_manager_reset *)
Definition reset_all (s : state) : option state :=
  match reset_ctx (set_vca (set_algo s None) []) CM1M2 with
  | None => None
  | Some s => match reset_ctx s CL1L2 with None => None | Some s => reset_sessions (s_count s) 0 s end
  end.

Definition done (r : option state) : option (state * result) := match r with Some s => Some (s, ROk) | None => None end.

Definition step (s : state) (o : op) : option (state * result) :=
  match o with
  (* spdm_transcript_manager.c:384-404; [None] is HASH_TYPE_INVALID *)
  | SetAlgo None => Some (s, RErr)
  | SetAlgo (Some a) => match s_algo s with None => Some (set_algo s (Some a), ROk) | Some _ => Some (s, RErr) end
  (* spdm_transcript_manager.c:406-412 *)
  | SetVersion v => Some (set_ver s v, ROk)
  | Update k msg session i f => match update s k msg session i f with Some (s, ok) => Some (s, if ok then ROk else RErr) | None => None end
  | GetHash k finish session i engine => get_hash s k finish session i engine
  | ResetContext k session i => done (reset_context s k session i)
  | ResetSession i => done (reset_session s i)
  | ResetAll => done (reset_all s)
  end.

Fixpoint run (s : state) (l : list op) : option (state * list (op * result)) :=
  match l with
  | [] => Some (s, [])
  | o :: l =>
    match step s o with
    | None => None
    | Some (s, r) => match run s l with None => None | Some (s, es) => Some (s, (o, r) :: es) end
    end
  end.
End Transcript.
