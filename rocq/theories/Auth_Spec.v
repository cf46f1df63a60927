(** What the authorization properties talk about. *)
From Coq Require Import List NArith Bool.
From Verif Require Import Base Auth_Model.
Import ListNotations.

(** The operation with an identifier is the first one listed. *)
Definition operation (ops : list oper) (id : N) : option oper := find (fun o => (o_id o =? id)%N) ops.
Definition challenged (ops : list oper) (id : N) (h : challenge) : Prop :=
  exists o, operation ops id = Some o /\ o_auth o = Challenged h.

(** The token that can be used after the events, oldest first, and the time it was handed out: a new token replaces
    the old one, and using it or failing to make a new one removes it. *)
Definition observe (ops : list oper) (p : option (list N * N)) (e : event) : option (list N * N) :=
  match e with
  | Event id d (Some r) _ now =>
    match operation ops id with
    | Some o =>
      match o_auth o, d, r with
      | Challenged _, None, RChallenge t => Some (t, now)
      | Challenged _, None, RFailed => None
      | Challenged _, Some _, RAuthorized => None
      | _, _, _ => p
      end
    | None => p
    end
  | _ => p
  end.
Definition active (ops : list oper) (es : list event) : option (list N * N) := fold_left (observe ops) es None.

(** The tokens handed out. *)
Definition issued (es : list event) : list (list N) :=
  flat_map (fun e => match e with Event _ _ (Some (RChallenge t)) _ _ => [t] | _ => [] end) es.

(** The layout of authorized data: where the token is and how much follows it before the signature. *)
Definition token_at (f : format) : nat := match f with TokenOnly => 0 | WithAad => 4 end.
Definition follows (f : format) (data : list N) : nat :=
  match f with TokenOnly => 0 | WithAad => N.to_nat (le_value (window 2 2 data)) end.

(** [data] holds the token, and a signature by the authority of all that comes before the signature. *)
Definition endorsed (sig_ok : list N -> list N -> bool) (f : format) (token data : list N) : Prop :=
  exists n, n = token_at f + length token + follows f data /\ n < length data /\
    window (token_at f) (length token) data = token /\ sig_ok (firstn n data) (skipn n data) = true.

(** Well formed headers of data with additional authenticated data. *)
Definition well_formed (f : format) (data : list N) : Prop :=
  match f with
  | TokenOnly => data <> []
  | WithAad => 4 <= length data /\ N.to_nat (le_value (window 0 2 data)) <> 0 /\
      4 + N.to_nat (le_value (window 0 2 data)) + N.to_nat (le_value (window 2 2 data)) <= length data
  end.

(** Everything that is handed to the code consists of bytes. *)
Definition op_ok (o : op) : Prop :=
  match o with
  | Request _ d g _ =>
    match d with Some l => bytes_ok l | None => True end /\
    match g_rng g with Some l => bytes_ok l | None => True end /\
    match g_sign g with Some l => bytes_ok l | None => True end
  | Wait _ => True
  end.
