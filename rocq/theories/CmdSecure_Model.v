(** * Model of the dispatch of Cerberus requests with sessions

    core/cmd_interface/cmd_interface_multi_handler.c:18-87,
    core/cmd_interface/cmd_interface_protocol_cerberus.c:13-115 and
    core/cmd_interface/cmd_interface_protocol_cerberus_secure.c:13-76.

    Modelled: the buffer of the message from the payload on, the length in it, the flag that
    the message is encrypted and the largest response; the checks of the header;
    the search for the handler; the header and the error message of the response.

    External: the session manager (decrypting and encrypting, modelled in
    Session_Model) and the handlers, with any results and any effects on the message.

    Simplified: pointers are not null; payload_length and length are equal; the flag
    crypto_timeout and the log entry of an error are left out.  Buffers have
    at least the ten bytes of an error message. *)
From Coq Require Import List NArith Bool Arith.
From Verif Require Import Base.
Import ListNotations.
Local Open Scope nat_scope.

(** struct cmd_interface_msg *)
Record msg := Msg { buf : list N; len : nat; enc : bool; maxr : N }.

(** CMD_HANDLER_*, or an error from elsewhere *)
Inductive code := Ok | TooShort | UnsupportedMsg | RsvdNotZero | EncryptionUnsupported | UnknownType | Error (e : N).
(** The value of a code in an error message; the numbers of the named ones are
    parameters. *)
Section Dispatch.
Variable value : code -> N.
Variable decrypt : msg -> N + (list N * nat).
Variable encrypt : msg -> N + (list N * nat).

(** struct cerberus_protocol_header (cerberus_protocol.h:142-151) *)
Definition b_at (m : msg) (i : nat) : N := nth i (buf m) 0%N.
Definition rq (m : msg) : N := (b_at m 3 / 128 mod 2)%N.

(** cmd_interface_protocol_cerberus_parse_message
    (cmd_interface_protocol_cerberus.c:13-61) *)
Definition parse_plain (m : msg) : code + (msg * N) :=
  if len m <? 5 then inl TooShort
  else if negb (b_at m 0 mod 128 =? 126)%N || N.testbit (b_at m 0) 7 || negb ((b_at m 1 =? 20)%N && (b_at m 2 =? 20)%N) then inl UnsupportedMsg
  else if negb (b_at m 3 mod 32 =? 0)%N || N.testbit (b_at m 3) 6 then inl RsvdNotZero
  else if N.testbit (b_at m 3) 5 then inl EncryptionUnsupported
  else inr (Msg (buf m) (len m) false (maxr m), b_at m 4).

(** cmd_interface_protocol_cerberus_secure_parse_message
    (cmd_interface_protocol_cerberus_secure.c:13-44): the largest response is a
    size_t and wraps. *)
Definition TRAILER : N := 28.
Definition SIZE : N := 2 ^ 64.
Definition parse (m : msg) : code + (msg * N) :=
  match parse_plain m with
  | inl EncryptionUnsupported =>
      match decrypt m with
      | inl e => inl (Error e)
      | inr (b, l) =>
          let m := Msg b l true ((maxr m + SIZE - TRAILER) mod SIZE)%N in
          inr (m, b_at m 4)
      end
  | r => r
  end.

(** cerberus_protocol_build_error_response
    (cerberus_protocol_required_commands.c:35-64) *)
Definition error_response (m : msg) (error_code data : N) : msg :=
  Msg (splice (buf m) 0 ([126; 20; 20; 128 * rq m; 127; error_code]%N ++ le32 data)) 10 (enc m) (maxr m).

(** cmd_interface_protocol_cerberus_handle_request_result
    (cmd_interface_protocol_cerberus.c:63-115) *)
Definition result_plain (r : code) (type : N) (m : msg) : msg :=
  match r with
  | Ok =>
      if len m =? 0 then error_response m 0 0
      else Msg (splice (buf m) 0 [126; 20; 20; 128 * rq m; type mod 256]%N) (len m) (enc m) (maxr m)
  | r => error_response m 4 (value r)
  end.

(** cmd_interface_protocol_cerberus_secure_handle_request_result
    (cmd_interface_protocol_cerberus_secure.c:46-76) *)
Definition handle_result (r : code) (type : N) (m : msg) : code * msg :=
  let m := result_plain r type m in
  if enc m then
    let m := Msg (buf m) (len m) (enc m) ((maxr m + TRAILER) mod SIZE)%N in
    match encrypt m with
    | inl e => (Error e, m)
    | inr (b, l) => (Ok, Msg (splice b 3 [N.setbit (nth 3 b 0%N) 5]) l (enc m) (maxr m))
    end
  else (Ok, m).

(** cmd_interface_multi_handler_find_message_type
    (cmd_interface_multi_handler.c:18-30): position and function of the handler *)
Definition handler := msg -> code * msg.
Fixpoint find (types : list (N * handler)) (i : nat) (type : N) : option (nat * handler) :=
  match types with
  | [] => None
  | (t, h) :: types => if (t =? type)%N then Some (i, h) else find types (S i) type
  end.

(** cmd_interface_multi_handler_process_request
    (cmd_interface_multi_handler.c:32-72): status, message, and the handler called
    with what. *)
Definition process (types : list (N * handler)) (m : msg) : code * msg * option (nat * msg) :=
  match parse m with
  | inl e => (e, m, None)
  | inr (m, type) =>
      match find types 0 type with
      | Some (i, h) => let '(r, m') := h m in (handle_result r type m', Some (i, m))
      | None => (handle_result UnknownType type m, None)
      end
  end.

(** cmd_interface_multi_handler_is_message_type_supported
    (cmd_interface_multi_handler.c:74-87) *)
Definition supported (types : list (N * handler)) (type : N) : bool :=
  match find types 0 type with Some _ => true | None => false end.
End Dispatch.
