(** C41, C53: recovery images.  The flash that holds an image has at most 1 GiB. *)
From Coq Require Import List NArith ZArith Lia Bool Arith.
From Verif Require Import Base Flash_Base FlashUtil_Model RecoveryImage_Model RecoveryImage_Spec RecoveryImage_Proofs RecoveryImage_Main_Proofs.
Import ListNotations.
Local Open Scope N_scope.

Lemma whole_parts : forall format version id_len rest body sig,
  whole_image format version id_len rest body sig =
  image_header format version (49 + len rest + len body + len sig) (len sig) id_len rest ++ body ++ sig.
Proof. intros. unfold whole_image, signed_part. now rewrite <- app_assoc. Qed.

Lemma len_whole : forall format version id_len rest body sig, length version = 32%nat ->
  len (whole_image format version id_len rest body sig) = 49 + len rest + len body + len sig.
Proof. intros. rewrite whole_parts, !len_app, len_image_header by auto. lia. Qed.

(** An image is accepted only if it is one: the flash holds a header, sections and a signature, the signature is good for
    all that comes before it, the header names the platform of the active PFM, and nothing but sections is between header
    and signature.  The sections are in ascending order unless one runs over the end of the address space.  The exception
    is a header in the signed part that gives a length of 1 GiB or more. *)
Theorem C41_accepted_image : forall m size rbad nomem hash check_sig fuel addr pfm cache,
  bytes_img m -> size <= 2 ^ 30 -> addr < 2 ^ 31 ->
  verify m size rbad nomem hash check_sig fuel addr pfm = (cache, Some (Ok tt)) ->
  exists format version id_len rest body sig,
    good_header format version id_len rest /\
    stored m addr (whole_image format version id_len rest body sig) /\
    addr + len (whole_image format version id_len rest body sig) <= size /\
    check_sig (hash (signed_part format version id_len rest body sig)) sig = SigGood /\
    cache = Some (hash (signed_part format version id_len rest body sig)) /\
    (forall id, pfm = Some (Some id) -> platform_is rest id) /\ pfm <> Some None /\
    ((exists l, encodes body l /\ l <> [] /\ (within (2 ^ 32 - 1) l -> ascending l)) \/
     (exists before l after n, body = before ++ after /\ after <> [] /\ encodes before l /\
        section_header_at m (addr + 49 + len rest + len before) n /\ 2 ^ 30 <= n)).
Proof.
  intros m size rbad nomem hash check_sig fuel addr pfm cache B Hs Ha H.
  apply verify_sound in H; auto. destruct H as (format & version & id_len & rest & body & sig & G & H). cbn zeta in H.
  destruct H as (H1 & H2 & H3 & H4 & H5 & H6 & H7). exists format, version, id_len, rest, body, sig.
  assert (Lv: length version = 32%nat) by (destruct G as (? & _); auto).
  assert (Lw: len (whole_image format version id_len rest body sig) = 49 + len rest + len body + len sig) by now apply len_whole.
  split; [auto|]. split.
  { unfold stored. rewrite whole_parts at 2. rewrite <- H2. f_equal. unfold len in *. lia. }
  split; [lia|]. unfold signed_part. split; [auto|]. split; [auto|]. split; [auto|]. split; [auto|].
  destruct H7 as [H7|(pre & l & n & P1 & P2 & P3 & P4 & P5)]; [now left|right].
  set (hdr := image_header format version (49 + len rest + len body + len sig) (len sig) id_len rest) in *.
  assert (Lh: len hdr = 49 + len rest) by (unfold hdr; now rewrite len_image_header).
  assert (I: img_read m addr (length (hdr ++ body ++ sig)) = hdr ++ body ++ sig).
  { rewrite <- H2 at 2. f_equal. rewrite !app_length. unfold len in *. lia. }
  apply image_parts in I. destruct I as (_ & I & _).
  exists pre, l, (skipn (length pre) body), n. split; [|split; [|split; [|split]]]; auto.
  - rewrite <- (firstn_skipn (length pre) body) at 1. f_equal. rewrite <- P2.
    rewrite <- I. clear - P1. apply nth_ext_len with (d := 0); [rewrite firstn_length, !length_img_read; unfold len in *; lia|].
    intros i Hi. rewrite length_img_read in *. rewrite firstn_length, length_img_read in Hi. rewrite nth_firstn by lia.
    rewrite !nth_img_read by lia. reflexivity.
  - intros C. apply (f_equal (@length N)) in C. rewrite skipn_length in C. unfold len in *. cbn in C. lia.
  - rewrite Lh in P4. replace (addr + 49 + len rest + len pre) with (addr + (49 + len rest) + len pre) by lia. exact P4.
Qed.
Print Assumptions C41_accepted_image.

(** Every such image with sections in order is accepted, if reads and allocations succeed. *)
Theorem C41_good_image_accepted : forall m size rbad nomem hash check_sig addr format version id_len rest body sig l pfm,
  (forall x, rbad x = false) -> (forall n, nomem n = false) -> size <= 2 ^ 30 ->
  good_header format version id_len rest -> sig <> [] -> l <> [] -> encodes body l -> ascending l -> within (2 ^ 32 - 1) l ->
  stored m addr (whole_image format version id_len rest body sig) ->
  addr + len (whole_image format version id_len rest body sig) <= size ->
  check_sig (hash (signed_part format version id_len rest body sig)) sig = SigGood ->
  (pfm = None \/ exists id, pfm = Some (Some id) /\ platform_is rest id) ->
  forall fuel, (length l < fuel)%nat ->
  verify m size rbad nomem hash check_sig fuel addr pfm =
    (Some (hash (signed_part format version id_len rest body sig)), Some (Ok tt)).
Proof.
  intros m size rbad nomem hash check_sig addr format version id_len rest body sig l pfm Q1 Q2 Hs G Ns Nl E As Wn St Fit CS P fuel Hf.
  assert (Lv: length version = 32%nat) by (destruct G as (? & _); auto). rewrite len_whole in Fit by auto.
  unfold stored in St. rewrite whole_parts in St. apply verify_complete with (l := l); auto. split; auto.
Qed.
Print Assumptions C41_good_image_accepted.

(** The digest and the version of an image are those of the bytes in the flash.  The digest is kept from verification. *)
Theorem C41_hash_and_version : forall m size rbad nomem hash addr name pad id_len rest body sig,
  (forall x, rbad x = false) -> (forall n, nomem n = false) -> size <= 2 ^ 30 -> text name ->
  good_header 0 (name ++ 0 :: pad) id_len rest ->
  stored m addr (whole_image 0 (name ++ 0 :: pad) id_len rest body sig) ->
  addr + len (whole_image 0 (name ++ 0 :: pad) id_len rest body sig) <= size ->
  get_hash m size rbad nomem hash None addr = Ok (hash (signed_part 0 (name ++ 0 :: pad) id_len rest body sig)) /\
  get_version m size rbad nomem addr = Ok name /\
  (forall m' check_sig fuel pfm cache, verify m size rbad nomem hash check_sig fuel addr pfm = (cache, Some (Ok tt)) ->
     get_hash m' size rbad nomem hash cache addr = Ok (hash (signed_part 0 (name ++ 0 :: pad) id_len rest body sig))).
Proof.
  intros m size rbad nomem hash addr name pad id_len rest body sig Q1 Q2 Hs T G St Fit.
  assert (Lv: length (name ++ 0 :: pad) = 32%nat) by (destruct G as (? & _); auto). rewrite len_whole in Fit by auto.
  unfold stored in St. rewrite whole_parts in St.
  set (version := name ++ 0 :: pad) in *. set (total := 49 + len rest + len body + len sig) in *.
  set (hdr := image_header 0 version total (len sig) id_len rest) in *.
  assert (Lh: len hdr = 49 + len rest) by (unfold hdr; now rewrite len_image_header).
  apply image_parts in St. destruct St as (I1 & I2 & I3 & I4).
  assert (HI: exists h, header_init m size rbad nomem addr = Ok h /\ h_length h = 49 + len rest /\ image_length h = total /\
     signature_length h = len sig /\ version_id h = version /\ platform_bytes h = rest).
  { destruct (header_init_at m size rbad nomem addr 0 version total (len sig) id_len rest) as [?|(NQ & _)]; auto; try lia.
    elim NQ. split; auto. }
  destruct HI as (h & H1 & H2 & H3 & H4 & H5 & H6).
  assert (HD: hashed m size rbad addr (sub32 total (len sig)) = Ok (hdr ++ body)).
  { rewrite sub32_id by lia. rewrite hashed_at by (auto; lia). f_equal.
    transitivity (img_read m addr (length (hdr ++ body))); [|exact I4]. f_equal. rewrite app_length. unfold len in *. lia. }
  split; [|split].
  - unfold get_hash. rewrite H1. cbn [bind]. rewrite H3, H4, HD. reflexivity.
  - unfold get_version. rewrite H1. cbn [bind]. rewrite H5. f_equal. unfold version.
    clear - T. induction T as [|b l (Nb & _) T IH]; cbn [cstring app]; [reflexivity|]. destruct (N.eqb_spec b 0); [contradiction|].
    now f_equal.
  - intros m' check_sig fuel pfm cache V. unfold verify in V. rewrite H1, H3, H4, Q2 in V.
    destruct (flash_read m size rbad (w32 (sub32 (addr + total) (len sig))) (len sig)); try discriminate.
    destruct (len sig =? 0); [discriminate|]. rewrite HD in V. destruct (check_sig _ _); try discriminate.
    injection V as <- _. reflexivity.
Qed.
Print Assumptions C41_hash_and_version.

(** With a header of format 0 that is as long as that format, nothing is read beyond the header: whatever the flash holds
    and whatever fails. *)
Theorem C41_stays_in_header : forall m size rbad nomem hash check_sig fuel addr pfm,
  bytes_img m -> addr + 8 < 2 ^ 32 -> u16 (img_read m addr 8) 2 = 0 -> 49 <= u16 (img_read m addr 8) 0 ->
  (forall id, pfm = Some (Some id) -> text id) ->
  snd (verify m size rbad nomem hash check_sig fuel addr pfm) <> Some Oob /\
  get_version m size rbad nomem addr <> Oob.
Proof.
  intros m size rbad nomem hash check_sig fuel addr pfm B Ha F L T. split; [now apply verify_safe|].
  unfold get_version. pose proof (header_init_safe m size rbad nomem addr B Ha (fun _ => L)) as S.
  destruct (header_init m size rbad nomem addr); cbn [bind]; congruence.
Qed.
Print Assumptions C41_stays_in_header.

(** Programming the host's flash: whatever fails, only bytes where the image has sections change; if the call succeeds, the
    flash holds every section at its address, and all else is unchanged. *)
Theorem C53_apply_writes_sections : forall m size rbad nomem rfail efail wres page addr format version id_len rest body sig l t fuel,
  bytes_img m -> 0 < page -> size <= 2 ^ 30 -> good_header format version id_len rest -> encodes body l -> ascending l ->
  stored m addr (whole_image format version id_len rest body sig) ->
  addr + len (whole_image format version id_len rest body sig) <= size ->
  let '(t', r) := apply m size rbad nomem rfail efail wres page fuel t addr in
  (forall x, (forall s, In s l -> ~ (s_addr s <= x < s_addr s + len (s_data s))) -> t' x = t x) /\
  (r = Some (Ok tt) -> holds t' t l).
Proof.
  intros m size rbad nomem rfail efail wres page addr format version id_len rest body sig l t fuel B Hp Hs G E As St Fit.
  assert (Lv: length version = 32%nat) by (destruct G as (? & _); auto). rewrite len_whole in Fit by auto.
  unfold stored in St. rewrite whole_parts in St.
  exact (apply_spec m size rbad nomem (fun l => l) (fun _ _ => SigGood) rfail efail wres page B Hp addr format version id_len rest body sig l t Hs Fit G St E As fuel).
Qed.
Print Assumptions C53_apply_writes_sections.

(** It does succeed when the flash is blank where the sections go and nothing fails. *)
Theorem C53_apply_succeeds : forall m size rbad nomem rfail efail wres page addr format version id_len rest body sig l t fuel,
  bytes_img m -> 0 < page <= MAX_COPY_BLOCK -> size <= 2 ^ 30 -> good_header format version id_len rest ->
  encodes body l -> ascending l -> within (2 ^ 32) l ->
  stored m addr (whole_image format version id_len rest body sig) ->
  addr + len (whole_image format version id_len rest body sig) <= size ->
  (forall x, rbad x = false) -> (forall n, nomem n = false) -> (forall x, rfail x = false) -> (forall x, efail x = false) ->
  (forall x, exists n, wres x = Some n /\ (N.to_nat page <= n)%nat) ->
  bytes_img t -> (forall s, In s l -> blank_on t (s_addr s) (len (s_data s))) -> (length l < fuel)%nat ->
  snd (apply m size rbad nomem rfail efail wres page fuel t addr) = Some (Ok tt).
Proof.
  intros m size rbad nomem rfail efail wres page addr format version id_len rest body sig l t fuel B Hp Hs G E As Wn St Fit Q1 Q2 Hr He Hw Bt Bl Hf.
  assert (Lv: length version = 32%nat) by (destruct G as (? & _); auto). rewrite len_whole in Fit by auto.
  unfold stored in St. rewrite whole_parts in St.
  exact (apply_total m size rbad nomem (fun l => l) (fun _ _ => SigGood) rfail efail wres page B Hp (conj Q1 Q2) Hr He Hw addr format version id_len rest body sig l t
    Hs Fit G St E As Wn Bt Bl fuel Hf).
Qed.
Print Assumptions C53_apply_succeeds.

(* ------------------------------------------------------------------------------------------ *)
(** A flash of 1024 bytes that holds the given bytes at address 64, a toy hash and a signature check. *)
Definition at64 (l : list N) : image := fun a => if a <? 64 then 255 else nth (N.to_nat (a - 64)) l 255.
Definition toy_hash (l : list N) : list N := [fold_left (fun a b => (a * 31 + b) mod 251) l 7].
Definition toy_sig (d s : list N) : sig_result := if list_eq_dec N.eq_dec s (d ++ [9]) then SigGood else SigBad.
Definition none {A} (_ : A) : bool := false.

Definition a_version : list N := [49; 46; 50] ++ 0 :: repeat 0 28.
Definition a_rest : list N := [80; 49] ++ [0].
Definition a_body : list N := section_header 0 16 5 [] ++ [1; 2; 3; 4; 5] ++ section_header 0 40 2 [] ++ [6; 7].
Definition a_sections : list section := [Section_ 16 [1; 2; 3; 4; 5]; Section_ 40 [6; 7]].
Definition a_sig : list N := toy_hash (signed_part 0 a_version 3 a_rest a_body [0; 0]) ++ [9].
Definition a_image : list N := whole_image 0 a_version 3 a_rest a_body a_sig.

Lemma at64_bytes : forall l, bytes_ok l -> bytes_img (at64 l).
Proof.
  intros l H x. unfold at64. destruct (x <? 64); [reflexivity|].
  destruct (nth_in_or_default (N.to_nat (x - 64)) l 255) as [I|E]; [|rewrite E; reflexivity].
  unfold bytes_ok in H. rewrite Forall_forall in H. now apply H.
Qed.

Lemma dec_bytes : forall l, forallb (fun b => b <? 256) l = true -> bytes_ok l.
Proof. intros l H. unfold bytes_ok. rewrite forallb_forall in H. apply Forall_forall. intros b Hb. apply N.ltb_lt. now apply H. Qed.

(** The hypotheses of the theorems are met: the image is accepted and programmed. *)
Example C41_case :
  good_header 0 a_version 3 a_rest /\ encodes a_body a_sections /\ ascending a_sections /\ within (2 ^ 32 - 1) a_sections /\
  stored (at64 a_image) 64 a_image /\ bytes_img (at64 a_image) /\
  verify (at64 a_image) 1024 none none toy_hash toy_sig 5 64 (Some (Some [80; 49])) =
    (Some (toy_hash (signed_part 0 a_version 3 a_rest a_body a_sig)), Some (Ok tt)) /\
  snd (verify (at64 a_image) 1024 none none toy_hash toy_sig 5 64 (Some (Some [80; 50]))) = Some (Err EIncompatible) /\
  snd (verify (at64 (upd a_image 80 0)) 1024 none none toy_hash toy_sig 5 64 None) = Some (Err EBadSignature) /\
  get_version (at64 a_image) 1024 none none 64 = Ok [49; 46; 50].
Proof.
  split; [|split; [|split; [|split; [|split; [vm_compute; reflexivity|split; [|split; [vm_compute; reflexivity|
    split; [vm_compute; reflexivity|split; vm_compute; reflexivity]]]]]]]].
  - split; [reflexivity|]. split; [apply dec_bytes; vm_compute; reflexivity|]. split; [apply dec_bytes; vm_compute; reflexivity|].
    split; [reflexivity|]. split; [reflexivity|]. split; [discriminate|]. intros _. split; [|split; [|reflexivity]].
    + exists [49; 46; 50], (repeat 0 28). split; [reflexivity|]. split; [|discriminate]. repeat constructor; discriminate.
    + exists [80; 49]. split; [reflexivity|]. repeat constructor; discriminate.
  - unfold a_body, a_sections. apply (enc_cons 0 16 [] [1; 2; 3; 4; 5]); try reflexivity; try discriminate.
    apply (enc_cons 0 40 [] [6; 7] []); try reflexivity; try discriminate. constructor.
  - cbn. repeat split; discriminate.
  - repeat constructor; discriminate.
  - apply at64_bytes, dec_bytes. vm_compute. reflexivity.
Qed.

Example C53_case :
  let w := fun _ : N => Some 300%nat in
  let r := apply (at64 a_image) 1024 none none none none w 256 5 (fun _ => 255) 64 in
  snd r = Some (Ok tt) /\ img_read (fst r) 14 10 = [255; 255; 1; 2; 3; 4; 5; 255; 255; 255] /\ img_read (fst r) 39 4 = [255; 6; 7; 255].
Proof. vm_compute. auto. Qed.

(** An image that is not signed makes the device read beyond the header it has allocated: a header of format 0 that is
    shorter than this format is parsed before its length is checked. *)
Theorem C41_short_header_refuted : exists m, bytes_img m /\ forall size hash check_sig fuel pfm, 72 <= size ->
  snd (verify m size none none hash check_sig fuel 64 pfm) = Some Oob.
Proof.
  exists (at64 (le16 8 ++ le16 0 ++ le32 IMAGE_MARKER)). split; [apply at64_bytes, dec_bytes; vm_compute; reflexivity|].
  intros size hash check_sig fuel pfm Hs.
  assert (H: header_init (at64 (le16 8 ++ le16 0 ++ le32 IMAGE_MARKER)) size none none 64 = Oob).
  { unfold header_init, load_header, bind, flash_read, none. unfold INFO_LEN.
    destruct (N.ltb_spec size (64 + 8)); [lia|]. cbn [orb].
    change (img_read (at64 (le16 8 ++ le16 0 ++ le32 IMAGE_MARKER)) 64 (N.to_nat 8)) with (le16 8 ++ le16 0 ++ le32 IMAGE_MARKER).
    change (u16 (le16 8 ++ le16 0 ++ le32 IMAGE_MARKER) 0) with 8. change (u16 (le16 8 ++ le16 0 ++ le32 IMAGE_MARKER) 2) with 0.
    change (u32 (le16 8 ++ le16 0 ++ le32 IMAGE_MARKER) 4 =? IMAGE_MARKER) with true. cbn [negb].
    change (8 <? 8) with false. change (MAX_HEADER <? 8) with false. cbn iota.
    change (w32 (64 + 8)) with 72. destruct (N.ltb_spec size (72 + (8 - 8))); [lia|]. cbn [orb]. reflexivity. }
  unfold verify. rewrite H. reflexivity.
Qed.
Print Assumptions C41_short_header_refuted.

(** The same holds for the platform identifier in a header of another format than 0. *)
Theorem C41_other_format_refuted : exists m, bytes_img m /\
  snd (verify m 1024 none none toy_hash toy_sig 5 64 (Some (Some [80; 49]))) = Some Oob.
Proof.
  exists (at64 (signed_part 1 a_version 3 [] a_body [0; 0] ++ toy_hash (signed_part 1 a_version 3 [] a_body [0; 0]) ++ [9])).
  split; [apply at64_bytes, dec_bytes; vm_compute; reflexivity|vm_compute; reflexivity].
Qed.
Print Assumptions C41_other_format_refuted.

Definition endless_body : list N := section_header 0 16 (2 ^ 32 - 16) [].
Definition endless_image : list N :=
  signed_part 0 a_version 3 a_rest endless_body [0; 0] ++ toy_hash (signed_part 0 a_version 3 a_rest endless_body [0; 0]) ++ [9].

(** Verification of a signed image need not end: with a section of 2^32 - 16 bytes the same header is read again and again. *)
Theorem C41_endless_refuted : forall fuel,
  snd (verify (at64 endless_image) 1024 none none toy_hash toy_sig fuel 64 (Some (Some [80; 49]))) = None.
Proof.
  assert (L: forall fuel low, low <= 16 -> check_sections (at64 endless_image) 1024 none none fuel 116 16 low = None).
  { induction fuel as [|f IH]; intros low H; [reflexivity|]. cbn [check_sections]. change (16 <=? 0)%Z with false. cbn iota.
    assert (S: section_init (at64 endless_image) 1024 none none 116 = Ok (Header 16 0 (le32 16 ++ le32 (2 ^ 32 - 16)))) by (vm_compute; reflexivity).
    rewrite S. change (host_addr (Header 16 0 (le32 16 ++ le32 (2 ^ 32 - 16)))) with 16.
    change (section_length (Header 16 0 (le32 16 ++ le32 (2 ^ 32 - 16)))) with (2 ^ 32 - 16). cbn [h_length].
    destruct (N.ltb_spec 16 low); [lia|]. change (w32 (16 + (2 ^ 32 - 16))) with 0. change (w32 (116 + 0)) with 116.
    change (s32 (16 - Z.of_N 0)) with 16%Z. apply IH. lia. }
  intros fuel. unfold verify.
  assert (H: header_init (at64 endless_image) 1024 none none 64 =
    Ok (Header 52 0 (a_version ++ le32 70 ++ le32 2 ++ [3] ++ a_rest))) by (vm_compute; reflexivity).
  rewrite H. set (h := Header 52 0 _).
  assert (E1: signature_length h = 2) by (vm_compute; reflexivity). assert (E2: image_length h = 70) by (vm_compute; reflexivity).
  rewrite E1, E2. unfold none at 1.
  assert (E3: flash_read (at64 endless_image) 1024 none (w32 (sub32 (64 + 70) 2)) 2 = Ok (toy_hash (signed_part 0 a_version 3 a_rest endless_body [0; 0]) ++ [9]))
    by (vm_compute; reflexivity).
  rewrite E3. change (2 =? 0) with false. cbn iota.
  assert (E4: hashed (at64 endless_image) 1024 none 64 (sub32 70 2) = Ok (signed_part 0 a_version 3 a_rest endless_body [0; 0])) by (vm_compute; reflexivity).
  rewrite E4.
  assert (E5: toy_sig (toy_hash (signed_part 0 a_version 3 a_rest endless_body [0; 0])) (toy_hash (signed_part 0 a_version 3 a_rest endless_body [0; 0]) ++ [9]) = SigGood)
    by (vm_compute; reflexivity).
  rewrite E5. cbn [snd]. assert (E6: check_platform (Some (Some [80; 49])) h = Ok tt) by (vm_compute; reflexivity). rewrite E6.
  change (s32 (Z.of_N (sub32 (sub32 70 (h_length h)) 2))) with 16%Z. change (16 <=? 0)%Z with false. cbn iota.
  change (w32 (64 + h_length h)) with 116. apply L. lia.
Qed.
Print Assumptions C41_endless_refuted.

(** The first section of encoded sections fits, and the others follow. *)
Lemma encodes_first : forall b l, encodes b l -> b <> [] -> u16 b 0 + u32 b 12 <= len b /\ exists l', encodes (skipn (N.to_nat (u16 b 0 + u32 b 12)) b) l'.
Proof.
  intros b l [|format a more data rest l' Hz Hf Hm Ha Hd E] N0; [contradiction|].
  assert (U1: u16 (section_header format a (len data) more ++ data ++ rest) 0 = 16 + len more).
  { unfold section_header. rewrite <- !app_assoc. apply (of_le16 (16 + len more) []). lia. }
  assert (U2: u32 (section_header format a (len data) more ++ data ++ rest) 12 = len data).
  { unfold section_header. rewrite <- !app_assoc.
    pose proof (of_le32 (len data) (le16 (16 + len more) ++ le16 format ++ le32 1259810609 ++ le32 a) (more ++ data ++ rest) Hd) as X.
    rewrite <- !app_assoc in X. exact X. }
  rewrite U1, U2. split; [rewrite !len_app, len_section_header; lia|]. exists l'.
  rewrite app_assoc. rewrite skipn_app, skipn_all2.
  - replace (N.to_nat (16 + len more + len data) - length (section_header format a (len data) more ++ data))%nat with 0%nat; [exact E|].
    pose proof (len_section_header format a (len data) more) as L. rewrite app_length. unfold len in *. lia.
  - pose proof (len_section_header format a (len data) more) as L. rewrite app_length. unfold len in *. lia.
Qed.

Definition overlap_body : list N :=
  section_header 0 16 24 [] ++ (section_header 0 512 24 [] ++ repeat 0 8) ++ section_header 0 256 (2 ^ 32 - 40) [].
Definition overlap_image : list N :=
  signed_part 0 a_version 3 a_rest overlap_body [0; 0] ++ toy_hash (signed_part 0 a_version 3 a_rest overlap_body [0; 0]) ++ [9].

(** A signed image whose contents are not a sequence of sections can be accepted: the length of the second section leads
    back into the data of the first. *)
Theorem C41_overlapping_sections_refuted :
  snd (verify (at64 overlap_image) 1024 none none toy_hash toy_sig 5 64 (Some (Some [80; 49]))) = Some (Ok tt) /\
  ~ exists l, encodes overlap_body l.
Proof.
  split; [vm_compute; reflexivity|]. intros (l & E). apply encodes_first in E; [|discriminate]. destruct E as (_ & l' & E).
  change (skipn (N.to_nat (u16 overlap_body 0 + u32 overlap_body 12)) overlap_body) with (section_header 0 256 (2 ^ 32 - 40) []) in E.
  apply encodes_first in E; [|discriminate]. destruct E as (E & _). vm_compute in E. now apply E.
Qed.
Print Assumptions C41_overlapping_sections_refuted.
