(** What the manifest properties talk about: the format of a manifest, and what was read from the flash. *)
From Coq Require Import List NArith Bool Arith.
From Verif Require Import Base Manifest_Model.
Import ListNotations.
Local Open Scope N_scope.

(** The fields of the format, least significant byte first. *)
Definition enc_header (h : mheader) (reserved : N) : list N :=
  le16 (h_length h) ++ le16 (h_magic h) ++ le32 (h_id h) ++ le16 (h_sig h) ++ [h_sigtype h; reserved].
Definition enc_entry (e : tentry) : list N :=
  [e_type e; e_parent e; e_format e; e_hash e] ++ le16 (e_offset e) ++ le16 (e_length e).

(** Values that fit into their fields. *)
Definition header_fits (h : mheader) : Prop :=
  h_length h < 65536 /\ h_magic h < 65536 /\ h_id h < 2 ^ 32 /\ h_sig h < 65536 /\ h_sigtype h < 256.
Definition entry_fits (e : tentry) : Prop :=
  e_type e < 256 /\ e_parent e < 256 /\ e_format e < 256 /\ e_hash e < 256 /\ e_offset e < 65536 /\ e_length e < 65536.

(** A table of contents: its entries and hashes, the byte for the type of hash and the unused one. *)
Record toc := Toc { tc_entries : list tentry; tc_hashes : list (list N); tc_type : N; tc_reserved : N }.
Definition enc_toc (t : toc) : list N :=
  [N.of_nat (length (tc_entries t)); N.of_nat (length (tc_hashes t)); tc_type t; tc_reserved t] ++
  flat_map enc_entry (tc_entries t) ++ concat (tc_hashes t).

(** The elements of a table are in order and do not overlap, beginning at [from]. *)
Fixpoint ascending (from : N) (l : list tentry) : Prop :=
  match l with [] => True | e :: r => from <= e_offset e /\ ascending (e_offset e + e_length e) r end.

(** The extension a table ends with, if any. *)
Definition extension (t : toc) : option tentry :=
  match rev (tc_entries t) with e :: _ => if e_type e =? 1 then Some e else None | [] => None end.

(** A table at offset [off] whose elements begin after it, and after [extra] more bytes. *)
Record toc_ok (allow_extension : bool) (hash_type hash_length off extra : N) (t : toc) : Prop := TocOk {
  tk_some : tc_entries t <> [];
  tk_count : (length (tc_entries t) <= 255)%nat /\ (length (tc_hashes t) <= 255)%nat;
  tk_hashes : Forall (fun h => N.of_nat (length h) = hash_length) (tc_hashes t);
  tk_fits : Forall entry_fits (tc_entries t);
  tk_type : tc_type t + 1 = hash_type;
  tk_order : ascending (off + N.of_nat (length (enc_toc t)) + extra) (tc_entries t);
  tk_ext : forall i e, nth_error (tc_entries t) i = Some e -> e_type e = 1 ->
    allow_extension = true /\ i = 254%nat /\ e_hash e < N.of_nat (length (tc_hashes t))
}.

(** The tables that follow, from offset [pos] on, if the one before ends with the extension [e]. *)
Inductive follow (allow : bool) (hash_type hash_length : N) : N -> option tentry -> list N -> list toc -> Prop :=
| follow_none : forall pos rest, follow allow hash_type hash_length pos None rest []
| follow_one : forall pos e gap t rest ts,
    pos + N.of_nat (length gap) = e_offset e -> e_length e = N.of_nat (length (enc_toc t)) ->
    toc_ok allow hash_type hash_length (e_offset e) 0 t ->
    follow allow hash_type hash_length (e_offset e + N.of_nat (length (enc_toc t))) (extension t) rest ts ->
    follow allow hash_type hash_length pos (Some e) (gap ++ enc_toc t ++ rest) (t :: ts).

(** The first entry for a platform ID. *)
Definition platform_entry (t : toc) : option tentry := find (fun e => e_type e =? 0) (tc_entries t).

(** The signed part of a manifest: [t] the root table, [root_hash] the hash stored after it, [id] the platform ID, and
    [ts] the tables of the extensions. *)
Record layout (allow : bool) (D : list N) (h : mheader) (hash_type hash_length : N) (t : toc) (root_hash id : list N) (ts : list toc) : Prop := Layout {
  ly_bytes : exists r gap p a b c rest,
    D = enc_header h r ++ enc_toc t ++ root_hash ++ gap ++ ([N.of_nat (length id); a; b; c] ++ id) ++ rest /\
    platform_entry t = Some p /\
    12 + N.of_nat (length (enc_toc t)) + hash_length + N.of_nat (length gap) = e_offset p /\
    follow allow hash_type hash_length (e_offset p + 4 + N.of_nat (length id)) (extension t) rest ts;
  ly_fits : header_fits h;
  ly_hash : hash_len hash_type = Some hash_length /\ N.of_nat (length root_hash) = hash_length;
  ly_root : toc_ok allow hash_type hash_length 12 hash_length t
}.

Definition entries_of (t : toc) (ts : list toc) : nat :=
  (length (tc_entries t) + list_sum (map (fun x => length (tc_entries x)) ts))%nat.

(** Every byte of [l] was read from its place, if [l] starts at [a]: some access returned it. *)
Definition read_at (rd : nat -> N -> nat -> option (list N)) (a : N) (l : list N) : Prop :=
  forall i, (i < length l)%nat -> exists k b n d, rd k b n = Some d /\ b <= a + N.of_nat i < b + N.of_nat n /\
    nth (N.to_nat (a + N.of_nat i - b)) d 0 = nth i l 0.

(** Accesses return as many bytes as were asked for. *)
Definition flash_ok (rd : nat -> N -> nat -> option (list N)) : Prop :=
  forall k a n l, rd k a n = Some l -> length l = n /\ bytes_ok l.

(** A flash that nobody changes and that works. *)
Definition stable (m : image) : nat -> N -> nat -> option (list N) := fun _ a n => Some (img_read m a n).

(** An entry of one of the types; extensions are never given out. *)
Definition matches (types : list N) (e : tentry) : Prop := e_type e <> 1 /\ In (e_type e) types.
(** A search for children stops at an entry without a parent. *)
Definition skipped (types : list N) (parent : N) (e : tentry) : Prop :=
  ~ matches types e /\ (e_type e <> 1 -> parent <> 255 -> e_parent e <> 255).

(** The first entry from [start] on that is of one of the types, among all entries of all tables. *)
Definition first_match (types : list N) (start parent : N) (all : list tentry) (i : N) (e : tentry) : Prop :=
  nth_error all (N.to_nat i) = Some e /\ start <= i /\ matches types e /\ (parent = 255 \/ e_parent e <> 255) /\
  forall j x, start <= N.of_nat j < i -> nth_error all j = Some x -> skipped types parent x.

(** The hash an entry has in its table, if any. *)
Definition hash_in (t : toc) (e : tentry) : option (list N) := nth_error (tc_hashes t) (N.to_nat (e_hash e)).
Fixpoint hash_of (tables : list toc) (i : nat) : option (list N) :=
  match tables with
  | [] => None
  | t :: r => match nth_error (tc_entries t) i with Some e => hash_in t e | None => hash_of r (i - length (tc_entries t)) end
  end.

(** Every table has the hash it should have: the first one [want], the others the hash of the extension before. *)
Inductive linked (hash : N -> list N -> list N) (ty : N) : list N -> toc -> list toc -> Prop :=
| linked_one : forall want t, hash ty (enc_toc t) = want -> extension t = None -> linked hash ty want t []
| linked_more : forall want t x h t2 ts, hash ty (enc_toc t) = want -> extension t = Some x -> hash_in t x = Some h ->
    linked hash ty h t2 ts -> linked hash ty want t (t2 :: ts).

(** The flash returned these bytes, in one piece or in two. *)
Definition read_parts (rd : nat -> N -> nat -> option (list N)) (x : list N) : Prop :=
  exists p q a b, x = p ++ q /\ read_at rd a p /\ read_at rd b q.

(** The flash contains something else with the same hash as [y].  (That such inputs exist is true of every hash; that one
    of them is in the flash means that somebody has found it.) *)
Definition forged (hash : N -> list N -> list N) (ty : N) (rd : nat -> N -> nat -> option (list N)) (y : list N) : Prop :=
  exists x, x <> y /\ hash ty x = hash ty y /\ read_parts rd x.
(** Two flashes contain different things with the same hash. *)
Definition clash (hash : N -> list N -> list N) (ty : N) (rd1 rd2 : nat -> N -> nat -> option (list N)) : Prop :=
  exists x y, x <> y /\ hash ty x = hash ty y /\ read_parts rd1 x /\ read_parts rd2 y.
