(** Requests of the Cerberus protocol, plain and sealed. *)
From Coq Require Import List NArith Bool Arith.
From Verif Require Import Base CmdSecure_Model.
Import ListNotations.
Local Open Scope nat_scope.

(** MCTP vendor message of vendor 0x1414, with the request bit [r] and a command. *)
Definition plain_request (b : list N) (r cmd : N) : Prop :=
  exists rest, b = [126; 20; 20; 128 * r; cmd]%N ++ rest /\ (r < 2)%N.
(** The same with the bit for encryption. *)
Definition sealed_request (b : list N) (r cmd : N) : Prop :=
  exists rest, b = [126; 20; 20; 128 * r + 32; cmd]%N ++ rest /\ (r < 2)%N.

(** The handler registered first for a type is at position [i]. *)
Definition registered (types : list (N * handler)) (type : N) (i : nat) (h : handler) : Prop :=
  nth_error types i = Some (type, h) /\ forall j t x, j < i -> nth_error types j = Some (t, x) -> t <> type.

(** Handlers do not touch how the response is to be protected. *)
Definition keeps_protection (types : list (N * handler)) : Prop :=
  forall t h m, In (t, h) types -> enc (snd (h m)) = enc m /\ maxr (snd (h m)) = maxr m.

(** [m] is the answer to command [cmd] when its handler returns [c] and leaves
    [out]: the response under a good header; a message that says success if there
    is none; or an error message with the failure. *)
Definition answers (value : code -> N) (cmd : N) (c : code) (out m : msg) : Prop :=
  match c with
  | Ok => if len out =? 0 then len m = 10 /\ firstn 10 (buf m) = [126; 20; 20; 128 * rq out; 127; 0; 0; 0; 0; 0]%N
          else len m = len out /\ buf m = [126; 20; 20; 128 * rq out; cmd]%N ++ skipn 5 (buf out)
  | c => len m = 10 /\ firstn 10 (buf m) = [126; 20; 20; 128 * rq out; 127; 4]%N ++ le32 (value c)
  end.
