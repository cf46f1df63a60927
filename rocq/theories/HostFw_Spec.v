(** What the host firmware properties talk about: flash regions as sets of addresses. *)
From Coq Require Import List NArith Permutation.
From Verif Require Import Base Flash_Base HostFw_Model.
Import ListNotations.
Local Open Scope N_scope.

(** Address [x] belongs to the region. *)
Definition inside (r : region) (x : N) : Prop := start r <= x < start r + len r.
(** Some region of the list holds the address. *)
Definition covered (rs : list region) (x : N) : Prop := exists r, In r rs /\ inside r x.

(** A region that is not empty and ends below the end of the 32-bit address space. *)
Definition proper (r : region) : Prop := 0 < len r /\ start r + len r < 2 ^ 32.
Definition disjoint (r s : region) : Prop := forall x, ~ (inside r x /\ inside s x).
(** The list describes separate regions. *)
Definition good (rs : list region) : Prop := Forall proper rs /\ ForallOrdPairs disjoint rs.

(** The block holding [x] also holds an address of the region. *)
Definition touches (blk : N) (r : region) (x : N) : Prop := exists y, inside r y /\ y / blk = x / blk.

(** The bytes of the regions, in order. *)
Definition contents (m : image) (rs : list region) : list N :=
  concat (map (fun r => img_read m (start r) (N.to_nat (len r))) rs).

(** Images that authenticate: [hash] and [rsa_verify] are the cryptographic operations. *)
Definition signed (hash : N -> list N -> option (list N)) (rsa_verify : rsa_key -> list N -> list N -> bool)
  (m : image) (i : sig_image) : Prop :=
  exists h, hash SHA256 (contents m (si_regions i)) = Some h /\
    rsa_verify (si_key i) (firstn (si_len i) (si_sig i)) h = true.
Definition hashed (hash : N -> list N -> option (list N)) (m : image) (i : hash_image) : Prop :=
  hash (hi_type i) (contents m (hi_regions i)) = Some (firstn (hi_len i) (hi_hash i)).
Definition authentic hash rsa_verify (m : image) (il : image_list) : Prop :=
  match il with
  | SigImages l => forall i, In i l -> signed hash rsa_verify m i
  | HashImages l => forall i, In i l -> hashed hash m i
  end.

(** The addresses the SPI filter lets the host write. *)
Definition writable_by (f : spi_filter) (x : N) : Prop :=
  exists id s e, f id = Some (s, e) /\ s <= x /\ (e = 0 \/ x < e).

(** The version identifier is on flash. *)
Definition on_flash (m : image) (offset : N) (v : fw_version) : Prop :=
  img_read m (v_addr v + offset) (length (v_id v)) = v_id v.

(** A hash engine: digests have the length of their type. *)
Definition digests (hash : N -> list N -> option (list N)) (dlen : N -> nat) : Prop :=
  forall t msg d, hash t msg = Some d -> length d = dlen t /\ bytes_ok d.

(** Images as the manifest parser builds them: the stored hash has the length of its hash type. *)
Definition parsed (dlen : N -> nat) (il : image_list) : Prop :=
  match il with
  | SigImages _ => True
  | HashImages l => forall i, In i l ->
      hi_len i = dlen (hi_type i) /\ (hi_len i <= length (hi_hash i))%nat /\ bytes_ok (hi_hash i)
  end.

(** Every image has at least one region, every signature at least one byte. *)
Definition not_empty (il : image_list) : Prop :=
  match il with
  | SigImages l => forall i, In i l -> si_regions i <> [] /\ si_len i <> 0%nat
  | HashImages l => forall i, In i l -> hi_regions i <> []
  end.

(** 32-bit start addresses. *)
Definition in_space (rs : list region) : Prop := Forall (fun r => start r < 2 ^ 32) rs.

(** Two signed (hashed) images with the same authentication data, flags and regions.  The order of
    the regions of an image does not matter. *)
Definition same_rsa_key (k1 k2 : rsa_key) : Prop :=
  exponent k1 = exponent k2 /\ mod_length k1 = mod_length k2 /\
  firstn (mod_length k1) (modulus k1) = firstn (mod_length k2) (modulus k2).
Definition same_sig_image (a b : sig_image) : Prop :=
  same_rsa_key (si_key a) (si_key b) /\ si_len a = si_len b /\ si_always a = si_always b /\
  firstn (si_len a) (si_sig a) = firstn (si_len b) (si_sig b) /\ Permutation (si_regions a) (si_regions b).
Definition same_hash_image (a b : hash_image) : Prop :=
  hi_type a = hi_type b /\ hi_len a = hi_len b /\ hi_always a = hi_always b /\
  firstn (hi_len a) (hi_hash a) = firstn (hi_len b) (hi_hash b) /\ Permutation (hi_regions a) (hi_regions b).
Definition same_images (a b : option image_list) : Prop :=
  match a, b with
  | None, None => True
  | Some (SigImages l1), Some (SigImages l2) => Forall2 same_sig_image l1 l2
  | Some (HashImages l1), Some (HashImages l2) => Forall2 same_hash_image l1 l2
  | _, _ => False
  end.

(** Values that fit the fixed arrays holding them: a modulus and a signature of at most 512 bytes
    (RSA_MAX_KEY_LENGTH), a hash of at most 64. *)
Definition array (l : list N) (size used : nat) : Prop := length l = size /\ bytes_ok l /\ (used <= size)%nat.
Definition sig_fits (i : sig_image) : Prop :=
  array (modulus (si_key i)) 512 (mod_length (si_key i)) /\ array (si_sig i) 512 (si_len i).
Definition hash_fits (i : hash_image) : Prop := array (hi_hash i) 64 (hi_len i).
Definition images_fit (o : option image_list) : Prop :=
  match o with
  | None => True
  | Some (SigImages l) => Forall sig_fits l
  | Some (HashImages l) => Forall hash_fits l
  end.
Definition regions_good (o : option image_list) : Prop :=
  match o with None => True | Some il => Forall good (image_regions il) end.

(** The length of each authenticator in the list. *)
Definition auth_lengths (o : option image_list) : list nat :=
  match o with
  | None => []
  | Some (SigImages l) => map si_len l
  | Some (HashImages l) => map hi_len l
  end.

(** Some region of the list has an address in the block that holds [x]. *)
Definition touched (blk : N) (rs : list region) (x : N) : Prop := exists r, In r rs /\ touches blk r x.
(** No erase block holds addresses of both. *)
Definition apart (blk : N) (a b : list region) : Prop := forall x, ~ (touched blk a x /\ touched blk b x).

(** A host flash of which nothing but read/write regions may keep its contents. *)
Definition read_only (fsize : N) (writable : list region) (x : N) : Prop := x < fsize /\ ~ covered writable x.

(** The region lists of the two flash devices do not match. *)
Definition diff (r : hf_result) : Prop := r = HfDiffCount \/ r = HfDiffAddr \/ r = HfDiffSize.

(** What is to be at [x] if region [r] is handled as [prop] says. *)
Definition wanted (prop : on_failure) (src : option image) (old : image) (x : N) : N :=
  match prop, src with
  | RwErase, _ => 255
  | RwRestore, Some s => s x
  | _, _ => old x
  end.

(** A region that is not empty and ends inside the address space, or with it. *)
Definition fits (r : region) : Prop := 0 < len r /\ start r + len r <= 2 ^ 32.

(** Versions whose identifier is a C string stored inside the address space. *)
Definition version_ok (offset : N) (v : fw_version) : Prop :=
  (forall c, In c (v_id v) -> c <> 0) /\ v_addr v + offset + N.of_nat (length (v_id v)) < 2 ^ 32.
