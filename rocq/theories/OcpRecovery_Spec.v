(** Vocabulary for the OCP recovery properties: how a write looks on the bus and what becomes of it,
    what a usable configuration is, and what is stored in a region. *)
From Coq Require Import List NArith ZArith Bool Arith.
From Verif Require Import Base Flash_Base Crc8_Spec OcpRecovery_Model.
Import ListNotations.
Local Open Scope N_scope.

(** ** The bus *)

(** SMBus packet error code of the bytes [l]. *)
Definition pec (l : list N) (q : N) : Prop := is_crc_remainder (be_value l) q.

Definition known (code : N) : Prop := 0x22 <= code <= 0x2c.

(** A write to 7-bit address [a]: the bytes after the address. *)
Definition message (a : N) (bs : list N) (f : faults) : list op := Start a :: map Byte bs ++ [Stop f].

(** A block read of command [code]. *)
Definition query (a code : N) (e : answers) (f : faults) : list op :=
  [Start a; Byte code; Transmit a e; Stop f].

(** What should become of the bytes of a write. *)
Inductive fate :=
  | Nothing                                       (* no bytes *)
  | BadCode                                       (* unknown command *)
  | Announced (code : N)                          (* only a command code *)
  | BadLength                                     (* too few or too many bytes *)
  | BadPec
  | Deliver (code : N) (payload : list N).

Inductive frame (a : N) : list N -> fate -> Prop :=
  | F_none : frame a [] Nothing
  | F_code : forall x t, ~ known x -> frame a (x :: t) BadCode
  | F_announced : forall x, known x -> frame a [x] (Announced x)
  | F_long : forall x t, known x -> (257 < length t)%nat -> frame a (x :: t) BadLength
  | F_short : forall x n p, known x -> N.of_nat (length p) < n -> frame a (x :: n :: p) BadLength
  | F_plain : forall x p, known x -> frame a (x :: N.of_nat (length p) :: p) (Deliver x p)
  | F_pec : forall x p q more, known x -> (length p < 255)%nat -> (length (p ++ q :: more) <= 256)%nat ->
      pec (a * 2 :: x :: N.of_nat (length p) :: p) q ->
      frame a (x :: N.of_nat (length p) :: p ++ q :: more) (Deliver x p)
  | F_bad : forall x p q more, known x -> (length p < 255)%nat -> (length (p ++ q :: more) <= 256)%nat ->
      ~ pec (a * 2 :: x :: N.of_nat (length p) :: p) q ->
      frame a (x :: N.of_nat (length p) :: p ++ q :: more) BadPec.

(** The effect on the device: a damaged write changes nothing but the protocol status reported to
    the requester (1 unsupported command, 3 length error, 4 checksum error). *)
Definition effect (c : config) (f : faults) (w : fate) (d : dev) : res (dev * list event) :=
  match w with
  | Nothing => Ret (d, [])
  | BadCode => Ret (set_proto (N.lor (proto d) 1) d, [])
  | Announced code => Ret (set_active code d, [])
  | BadLength => Ret (set_proto 3 (set_active 0 d), [])
  | BadPec => Ret (set_proto 4 (set_active 0 d), [])
  | Deliver code payload =>
    match write_request c f (set_active code d) payload with
    | Ret (_, d, ev) => Ret (d, ev)
    | Wild => Wild
    end
  end.

(** No call of the hardware interface. *)
Definition silent (o : output) : Prop := match o with Events (_ :: _) => False | _ => True end.
Definition acks (w : fate) (o : output) : Prop :=
  match w, o with
  | BadCode, Ack b => b = false
  | (Announced _ | Deliver _ _ | BadPec), Ack b => b = true
  | _, _ => True
  end.

(** ** Configurations *)

Definition writable (r : region) : Prop := r_type r = REGION_CODE \/ r_type r = REGION_RW.

(** A length is given exactly for the regions that are not of variable length; flash regions consist
    of whole sectors of the device. *)
Definition sane_region (c : config) (r : region) : Prop :=
  r_len r < 2 ^ 32 - 4 /\
  match r_back r with
  | Log => r_len r = 0
  | Ram => 0 < r_len r
  | Nor base => 0 < r_len r /\ base mod sector c = 0 /\ r_len r mod sector c = 0 /\ base + r_len r <= flash_size c
  end.

Definition sane (c : config) : Prop :=
  flash_size c < 2 ^ 32 /\ 256 <= sector c /\ sector c mod 4 = 0 /\ Forall (sane_region c) (regions c).

(** At most the first region is in flash. *)
Definition one_flash (c : config) : Prop :=
  forall i r base, nth_error (regions c) i = Some r -> r_back r = Nor base -> i = O.

(** The memory of a region has the configured size. *)
Definition fits (c : config) (s : store) : Prop :=
  forall i r, nth_error (regions c) i = Some r -> r_back r = Ram -> N.of_nat (length (mem s i)) = r_len r.

(** An address that belongs to a writable flash region. *)
Definition exposed (c : config) (x : N) : Prop :=
  exists i r base, nth_error (regions c) i = Some r /\ writable r /\ r_back r = Nor base /\
    base <= x < base + r_len r.

(** What the bus and the hardware deliver: bytes; at most 255 bytes of device ID; at most 252 bytes
    of a variable region. *)
Definition fair (o : op) : Prop :=
  match o with
  | Byte x => byte_ok x
  | Transmit _ e =>
    (forall l, a_id e = Some l -> (length l <= 255)%nat) /\
    (forall off l, a_data e off = Some l -> (length l <= 252)%nat)
  | _ => True
  end.

(** The hardware interface is called only for functions it has, a recovery image is activated only
    from a code region. *)
Definition allowed (c : config) (ev : event) : Prop :=
  match ev with
  | EvReset forced => has_reset c = true /\ (forced = true -> has_forced c = true)
  | EvMgmt forced => has_mgmt c = true /\ (forced = true -> has_forced c = true)
  | EvActivate i => has_activate c = true /\ exists r, nth_error (regions c) i = Some r /\ r_type r = REGION_CODE
  end.

(** ** Transfers *)

(** No fault of the flash. *)
Definition healthy (f : faults) : Prop :=
  forall k, f_erase f k = (true, true) /\ f_size f k = true /\ snd (f_write f k) = true /\ (255 <= fst (f_write f k))%nat.

(** Select a region and an offset; write a piece; read a piece. *)
Definition select (a : N) (i : nat) (off : N) (f : faults) : list op :=
  message a ([0x29; 6; N.of_nat i; 0] ++ le32 off) f.
Definition push (a : N) (f : faults) (piece : list N) : list op :=
  message a (0x2b :: N.of_nat (length piece) :: piece) f.
Definition fetch (a : N) (e : answers) (f : faults) : list op := query a 0x2b e f.

(** The pieces of an image: up to 255 bytes each and, except for the last, a multiple of four. *)
Fixpoint pieces (l : list (list N)) : Prop :=
  match l with
  | [] => True
  | p :: t => (0 < length p <= 255)%nat /\ bytes_ok p /\ (t = [] \/ length p mod 4 = 0)%nat /\ pieces t
  end.

(** [l] is what is stored in region [i]; for a variable region, what its interface [e] returns. *)
Definition holds (s : store) (e : answers) (i : nat) (r : region) (l : list N) : Prop :=
  match r_back r with
  | Ram => mem s i = l
  | Nor base => img_read (flash s) base (N.to_nat (r_len r)) = l /\ a_flash e = true
  | Log => a_size e = Some (N.of_nat (length l)) /\
      forall off, off < N.of_nat (length l) ->
        a_data e off = Some (window (N.to_nat off) (Nat.min 252 (length l - N.to_nat off)) l)
  end.

(** The data received by the requester. *)
Definition received (outs : list output) : list N :=
  flat_map (fun o => match o with Sent l => firstn (N.to_nat (hd 0 l)) (tl l) | _ => [] end) outs.
