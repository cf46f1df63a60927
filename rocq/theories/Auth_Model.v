(** Model of core/common/auth_token.c, authorization_challenge.c, authorization_global.c, authorization_allowed.c,
    authorization_disallowed.c, authorized_data_token_only.c, authorized_data_with_aad.c and
    core/cmd_interface/cmd_authorization.c.

    Simplifications: pointers are valid, apart from the token, and one token handler serves all challenge
    operations; lengths do not overflow (they are at most 65535 and a token each); the locks are not modelled (each
    request is one step).  The random generator, the signing engine, the clock and signature verification are
    arbitrary and may fail. *)
From Coq Require Import List NArith Bool Arith.
From Verif Require Import Base BufferUtil_Model.
Import ListNotations.

(** auth_token.h:73-92: lengths of the context data, the nonce and the longest signature; validity in milliseconds. *)
Record cfg := Cfg { c_data : nat; c_nonce : nat; c_sig : nat; c_validity : N }.
(** struct auth_token_state and the token buffer *)
Record tok := Tok { k_buf : list N; k_len : nat; k_exp : N }.

(** auth_token.c:236-280 and auth_token_init: a cleared state. *)
Definition init_tok (c : cfg) (memory : list N) : tok := Tok (firstn (c_data c + c_nonce c + c_sig c) memory) 0 0.

(** What happens while a token is generated. *)
Record gen_env := GenEnv { g_rng : option (list N); g_sign : option (list N); g_clock : bool }.

Inductive gen := GenTooLong | GenFailed | Generated (token : list N).

(** auth_token.c:12-74, auth_token_new_token at time [now]; a null [data] is an empty list. *)
Definition new_token (c : cfg) (s : tok) (data : list N) (v : gen_env) (now : N) : tok * gen :=
  if c_data c <? length data then (s, GenTooLong)
  else
    let b0 := splice (splice (k_buf s) 0 (repeat 0%N (c_data c))) 0 data in
    match g_rng v with
    | None => (Tok b0 0 (k_exp s), GenFailed)
    | Some r =>
      let b1 := splice b0 (c_data c) (firstn (c_nonce c) (r ++ repeat 0%N (c_nonce c))) in
      match g_sign v with
      | None => (Tok b1 0 (k_exp s), GenFailed)
      | Some sg =>
        let sg := firstn (c_sig c) sg in
        let b2 := splice b1 (c_data c + c_nonce c) sg in
        if negb (c_validity c =? 0)%N && negb (g_clock v) then (Tok b2 0 (k_exp s), GenFailed)
        else
          let e := if (c_validity c =? 0)%N then k_exp s else (now + c_validity c)%N in
          let n := c_data c + c_nonce c + length sg in (Tok b2 n e, Generated (firstn n b2))
      end
    end.

Section Auth.
(** Is the signature (second) of the message (first) by the authority right? *)
Variable sig_ok : list N -> list N -> bool.

Inductive verdict := Valid | NotValid | VerifyFailed.

(** What happens during verification: failures of the clock and of the hash or signature engine. *)
Record ver_env := VerEnv { r_clock : bool; r_engine : bool }.

(** auth_token.c:76-130, auth_token_verify_data; platform.c:78-92 of the Linux port: a timeout expires at its time. *)
Definition verify_data (c : cfg) (s : tok) (data : list N) (offset aad : nat) (v : ver_env) (now : N) : verdict :=
  let n := offset + k_len s + aad in
  if negb (k_len s =? 0) && (k_len s <? length data) && (offset <? length data) && (aad <? length data) && (n <? length data) then
    if negb (c_validity c =? 0)%N && negb (r_clock v) then VerifyFailed
    else if negb (c_validity c =? 0)%N && (k_exp s <=? now)%N then NotValid
    else if negb (buffer_compare 0xff (Some (skipn offset data)) (Some (k_buf s)) (k_len s)) then NotValid
    else if negb (r_engine v) then VerifyFailed
    else if sig_ok (firstn n data) (skipn n data) then Valid else NotValid
  else NotValid.

(** auth_token.c:132-141, auth_token_invalidate *)
Definition invalidate (s : tok) : tok := Tok (k_buf s) 0 (k_exp s).

(** The two layouts of authorized data. *)
Inductive format := TokenOnly | WithAad.
Definition word (data : list N) (o : nat) : nat := N.to_nat (le_value (window o 2 data)).
(** authorized_data_with_aad.c:32-49, authorized_data_with_aad_get_header *)
Definition header_ok (data : list N) : bool := (4 <=? length data) && (4 + word data 0 + word data 2 <=? length data).
(** authorized_data_token_only.c:9-24 and authorized_data_with_aad.c:51-75, get_token_offset; [None] for an error. *)
Definition token_offset (f : format) (data : list N) : option nat :=
  match f with
  | TokenOnly => if length data =? 0 then None else Some 0
  | WithAad => if header_ok data then (if word data 0 =? 0 then None else Some 4) else None
  end.
(** authorized_data_token_only.c:41-51 and authorized_data_with_aad.c:105-123, get_authenticated_data_length *)
Definition aad_length (f : format) (data : list N) : option nat :=
  match f with
  | TokenOnly => if length data =? 0 then None else Some 0
  | WithAad => if header_ok data then Some (word data 2) else None
  end.
(** authorized_data_token_only.c:26-39 and authorized_data_with_aad.c:77-103, get_authenticated_data: the data given to
    the operation, [Some []] if there is none. *)
Definition get_aad (f : format) (data : list N) : option (list N) :=
  match f with
  | TokenOnly => if length data =? 0 then None else Some []
  | WithAad => if header_ok data then Some (window (4 + word data 0) (word data 2) data) else None
  end.
(** authorized_data_with_aad.c:125-151, get_signature: where the signature starts. *)
Definition signature_start (data : list N) : option nat :=
  if header_ok data then
    let o := 4 + word data 0 + word data 2 in if length data =? o then None else Some o
  else None.

Inductive reply :=
| RChallenge (token : list N)
| RAuthorized
| RDenied        (* AUTHORIZATION_NOT_AUTHORIZED *)
| RTooLong       (* AUTH_TOKEN_DATA_TOO_LONG *)
| RFailed.       (* any other error *)

(** authorization_challenge.h:39-47 *)
Record challenge := Chal { h_tag : option N; h_fmt : format }.

(** authorization_challenge.c:12-71, authorization_challenge_authorize; [data] is [None] for a null pointer. *)
Definition challenge_authorize (c : cfg) (h : challenge) (s : tok) (data : option (list N)) (g : gen_env) (v : ver_env) (now : N)
  : tok * reply :=
  match data with
  | None =>
    match new_token c s (match h_tag h with Some t => le32 t | None => [] end) g now with
    | (s', Generated t) => (s', RChallenge t)
    | (s', GenFailed) => (s', RFailed)
    | (s', GenTooLong) => (s', RTooLong)
    end
  | Some d =>
    match token_offset (h_fmt h) d, aad_length (h_fmt h) d with
    | Some o, Some a =>
      match verify_data c s d o a v now with
      | Valid => (invalidate s, RAuthorized)
      | NotValid => (s, RDenied)
      | VerifyFailed => (s, RFailed)
      end
    | _, _ => (s, RFailed)
    end
  end.

(** authorization_global.c:9-40, authorization_global_authorize *)
Definition global_authorize (data : option (list N)) (v : ver_env) : reply :=
  match data with
  | None => RDenied
  | Some d =>
    if length d =? 0 then RDenied
    else match signature_start d with
         | None => RFailed
         | Some n => if negb (r_engine v) then RFailed
                     else if sig_ok (firstn n d) (skipn n d) then RAuthorized else RDenied
         end
  end.

(** The kinds of authorization of an operation; [NoAuth] is a null pointer. *)
Inductive auth := NoAuth | Allowed | Disallowed | Challenged (h : challenge) | Global.

(** cmd_authorization.h:18-41, with the result of validating the data for the operation. *)
Record oper := Oper { o_id : N; o_auth : auth; o_data : option format; o_exec : option (list N -> bool) }.

(** authorization_allowed.c:11-19, authorization_disallowed.c:11-22 and the above. *)
Definition authorize (c : cfg) (a : auth) (s : tok) (data : option (list N)) (g : gen_env) (v : ver_env) (now : N) : tok * reply :=
  match a with
  | NoAuth | Disallowed => (s, RDenied)
  | Allowed => (s, RAuthorized)
  | Challenged h => challenge_authorize c h s data g v now
  | Global => (s, global_authorize data v)
  end.

Inductive answer :=
| Context (aad : list N) (executable : bool)   (* the operation may be run on this data *)
| Challenge (token : list N)
| Refused
| Unsupported
| Error.

(** cmd_authorization.c:12-77, cmd_authorization_authorize_operation.  The second component is what the operation's
    authorization answered, if it was asked. *)
Definition authorize_operation (c : cfg) (ops : list oper) (s : tok) (id : N) (data : option (list N)) (g : gen_env) (v : ver_env) (now : N)
  : tok * option reply * answer :=
  match find (fun o => (o_id o =? id)%N) ops with
  | None => (s, None, Unsupported)
  | Some o =>
    let '(s', r) := authorize c (o_auth o) s data g v now in
    (s', Some r,
     match r with
     | RAuthorized =>
       match (match data, o_data o with Some d, Some f => get_aad f d | _, _ => Some [] end) with
       | None => Error
       | Some a =>
         match o_exec o with
         | Some validate => if validate a then Context a true else Error
         | None => Context a false
         end
       end
     | RChallenge t => Challenge t
     | RDenied => Refused
     | RTooLong | RFailed => Error
     end)
  end.

(** A history of requests, with time passing between them. *)
Inductive op := Request (id : N) (data : option (list N)) (g : gen_env) (v : ver_env) | Wait (ms : N).

(** What can be seen of a request, and when. *)
Inductive event := Event (id : N) (data : option (list N)) (r : option reply) (a : answer) (now : N).

Fixpoint run (c : cfg) (ops : list oper) (s : tok) (now : N) (l : list op) : tok * N * list event :=
  match l with
  | [] => (s, now, [])
  | Wait ms :: q => run c ops s (now + ms)%N q
  | Request id d g v :: q =>
    let '(s1, r, a) := authorize_operation c ops s id d g v now in
    let '(s2, t, es) := run c ops s1 now q in (s2, t, Event id d r a now :: es)
  end.
End Auth.
