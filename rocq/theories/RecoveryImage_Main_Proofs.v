(** Proofs about recovery images: verification, and programming the flash of the host. *)
From Coq Require Import List NArith ZArith Lia Bool Arith ZifyBool ZifyNat ZifyN.
From Verif Require Import Base Flash_Base FlashUtil_Model FlashUtil_Proofs FlashUtil_Total_Proofs
  KeyWrap_Proofs Auth_Proofs FlashStore_Read_Proofs RecoveryImage_Model RecoveryImage_Spec RecoveryImage_Proofs.
Import ListNotations.
Local Open Scope N_scope.

Lemma app_prefix : forall (a b c d : list N), a ++ b = c ++ d -> length a = length c -> a = c /\ b = d.
Proof.
  induction a as [|x a IH]; intros b [|y c] d H L; cbn in L; try lia; [auto|]. cbn in H. injection H as -> H.
  apply IH in H; [|lia]. destruct H. subst. auto.
Qed.

Lemma img_read_part : forall m a l1 l2, img_read m a (length (l1 ++ l2)) = l1 ++ l2 ->
  img_read m a (length l1) = l1 /\ img_read m (a + len l1) (length l2) = l2.
Proof. intros m a l1 l2 H. apply img_read_split in H; [exact H|apply app_length]. Qed.

Lemma len_image_header : forall f v t s i r, length v = 32%nat -> len (image_header f v t s i r) = 49 + len r.
Proof. intros. unfold image_header, len. rewrite !app_length. cbn [length le16 le32]. lia. Qed.

Section P.
Variable m : image.
Variable size : N.
Variable rbad : N -> bool.
Variable nomem : N -> bool.

(** No read fails and there is enough memory. *)
Definition quiet : Prop := (forall x, rbad x = false) /\ (forall n, nomem n = false).

(** Loading a header whose bytes are known. *)
Lemma load_header_at : forall a mk ok hl fmt data, a + hl <= size -> size < 2 ^ 32 -> hl = 8 + len data -> hl <= 1024 -> fmt < 65536 -> mk < 2 ^ 32 ->
  ok fmt (hl - 8) = true -> img_read m a (N.to_nat hl) = le16 hl ++ le16 fmt ++ le32 mk ++ data ->
  load_header m size rbad nomem a mk ok = Ok (Header hl fmt data) \/
  (~ quiet /\ exists e, load_header m size rbad nomem a mk ok = Err e).
Proof.
  intros a mk ok hl fmt data Ha Hs Hl Hm Hf Hmk Hok I. unfold load_header, INFO_LEN, MAX_HEADER.
  assert (I2: img_read m a (length ((le16 hl ++ le16 fmt ++ le32 mk) ++ data)) = (le16 hl ++ le16 fmt ++ le32 mk) ++ data).
  { rewrite <- !app_assoc. rewrite <- I at 2. f_equal. rewrite !app_length. cbn [length le16 le32]. unfold len in Hl. lia. }
  apply img_read_part in I2. destruct I2 as (I1 & I2). unfold bind, flash_read.
  destruct (N.ltb_spec size (a + 8)); [lia|]. cbn [orb].
  destruct (rbad a) eqn:R. { right. split; [|eauto]. intros (Q & _). rewrite Q in R. discriminate. }
  change (N.to_nat 8) with (length (le16 hl ++ le16 fmt ++ le32 mk)). rewrite I1.
  assert (E1: u16 (le16 hl ++ le16 fmt ++ le32 mk) 0 = hl) by (apply (of_le16 hl []); lia).
  assert (E2: u16 (le16 hl ++ le16 fmt ++ le32 mk) 2 = fmt) by (apply (of_le16 fmt (le16 hl)); lia).
  assert (E3: u32 (le16 hl ++ le16 fmt ++ le32 mk) 4 = mk).
  { pose proof (of_le32 mk (le16 hl ++ le16 fmt) [] Hmk) as E. rewrite app_nil_r, <- app_assoc in E. exact E. }
  rewrite E1, E2, E3, N.eqb_refl, Hok. cbn [negb].
  destruct (N.ltb_spec hl 8); [lia|]. destruct (N.ltb_spec 1024 hl); [lia|].
  destruct (nomem (hl - 8)) eqn:M. { right. split; [|eauto]. intros (_ & Q). rewrite Q in M. discriminate. }
  rewrite w32_id by lia. destruct (N.ltb_spec size (a + 8 + (hl - 8))); [lia|]. cbn [orb].
  destruct (rbad (a + 8)) eqn:R2. { right. split; [|eauto]. intros (Q & _). rewrite Q in R2. discriminate. }
  left. do 2 f_equal. change (len (le16 hl ++ le16 fmt ++ le32 mk)) with 8 in I2. rewrite <- I2. f_equal. unfold len in Hl. lia.
Qed.

Lemma section_init_at : forall a format host n more, a + 16 + len more <= size -> size < 2 ^ 32 ->
  (format = 0 -> more = []) -> format < 65536 -> len more <= 1008 -> host < 2 ^ 32 -> n < 2 ^ 32 ->
  img_read m a (length (section_header format host n more)) = section_header format host n more ->
  (exists h, section_init m size rbad nomem a = Ok h /\ h_length h = 16 + len more /\ host_addr h = host /\ section_length h = n) \/
  (~ quiet /\ exists e, section_init m size rbad nomem a = Err e).
Proof.
  intros a format host n more Ha Hs Hz Hf Hm Hh Hn I.
  assert (LD: len (le32 host ++ le32 n ++ more) = 8 + len more) by (unfold len; rewrite !app_length; cbn [length le32]; lia).
  destruct (load_header_at a SECTION_MARKER (fun format n => if format =? 0 then n =? 8 else 8 <=? n)
    (16 + len more) format (le32 host ++ le32 n ++ more)) as [E|(Q & E)]; auto; try lia; try reflexivity.
  - destruct (N.eqb_spec format 0) as [Z|Z]; [rewrite (Hz Z); reflexivity|]. lia.
  - unfold section_header in I at 2. unfold SECTION_MARKER. rewrite <- I. f_equal. pose proof (len_section_header format host n more) as L. unfold len in *. lia.
  - left. eexists. split; [exact E|]. cbn [h_length]. split; [reflexivity|]. unfold host_addr, section_length. cbn [h_data]. split.
    + exact (of_le32 host [] _ Hh).
    + exact (of_le32 n (le32 host) _ Hn).
Qed.

Lemma check_sections_complete : forall body l, encodes body l -> forall fuel next low, quiet -> (length l < fuel)%nat ->
  img_read m next (length body) = body -> next + len body <= size -> size <= 2 ^ 30 -> ascending_from low l -> within (2 ^ 32 - 1) l ->
  check_sections m size rbad nomem fuel next (Z.of_N (len body)) low = Some (Ok tt).
Proof.
  induction 1 as [|format host more data rest l Hz Hf Hm Hh Hn E IH]; intros fuel next low Q Hfu I Hs Hz2 As Wn.
  - destruct fuel; [cbn in Hfu; lia|]. reflexivity.
  - destruct fuel as [|f]; [cbn in Hfu; lia|]. cbn [check_sections].
    set (sh := section_header format host (len data) more) in *.
    assert (Lsh: len sh = 16 + len more) by apply len_section_header.
    assert (LB: len (sh ++ data ++ rest) = 16 + len more + len data + len rest) by (rewrite !len_app; lia).
    destruct (Z.leb_spec (Z.of_N (len (sh ++ data ++ rest))) 0); [lia|].
    apply img_read_part in I. destruct I as (I1 & I2). apply img_read_part in I2. destruct I2 as (I2 & I3).
    destruct (section_init_at next format host (len data) more) as [(h & S1 & S2 & S3 & S4)|(NQ & _)]; auto; try lia; [|contradiction].
    rewrite S1, S2, S3, S4. cbn [ascending_from s_addr s_data] in As. destruct As as (A1 & A2).
    inversion_clear Wn as [|? ? W1 W2]. cbn [s_addr s_data] in W1.
    destruct (N.ltb_spec host low); [lia|]. rewrite (w32_id (16 + len more + len data)) by lia. rewrite !w32_id by lia. rewrite s32_id by lia.
    replace (Z.of_N (len (sh ++ data ++ rest)) - Z.of_N (16 + len more + len data))%Z with (Z.of_N (len rest)) by lia.
    apply IH; auto; try lia; [cbn in Hfu; lia|]. rewrite <- I3 at 2. f_equal. lia.
Qed.

Lemma strnlen_text : forall l r n, text l -> (length l < n)%nat -> strnlen (l ++ 0 :: r) n = Some (length l).
Proof. clear.
  induction l as [|b l IH]; intros r n T L; destruct n; cbn [length] in L; try lia; cbn [strnlen app]; [reflexivity|].
  inversion T as [|? ? (Nb & _) T']; subst. destruct (N.eqb_spec b 0); [contradiction|]. rewrite IH by (auto; lia). reflexivity.
Qed.

(** Loading the header of an image. *)
Lemma header_init_at : forall a format version total sig id_len rest, a + 49 + len rest <= size -> size < 2 ^ 32 ->
  good_header format version id_len rest -> total < 2 ^ 32 -> sig < 2 ^ 32 -> 49 + len rest + sig <= total ->
  img_read m a (length (image_header format version total sig id_len rest)) = image_header format version total sig id_len rest ->
  (exists h, header_init m size rbad nomem a = Ok h /\ h_length h = 49 + len rest /\ image_length h = total /\
     signature_length h = sig /\ version_id h = version /\ platform_bytes h = rest) \/
  (~ quiet /\ exists e, header_init m size rbad nomem a = Err e).
Proof.
  intros a format version total sig id_len rest Ha Hs G Ht Hsig Hlen I.
  destruct G as (Lv & Bv & Br & Hf & Hid & Hr & G0).
  set (d := version ++ le32 total ++ le32 sig ++ [id_len] ++ rest).
  assert (LD: len d = 41 + len rest) by (unfold len, d; rewrite !app_length; cbn [length le32]; lia).
  destruct (load_header_at a IMAGE_MARKER (fun _ _ => true) (49 + len rest) format d) as [E|(Q & e & E)]; auto; try lia; try reflexivity.
  { unfold image_header in I at 2. unfold IMAGE_MARKER. fold d in I. rewrite <- I. f_equal.
    pose proof (len_image_header format version total sig id_len rest Lv) as L. unfold len in *. lia. }
  2:{ right. split; [auto|]. exists e. unfold header_init. rewrite E. reflexivity. }
  left. exists (Header (49 + len rest) format d). unfold header_init. rewrite E. cbn [bind h_data h_format].
  assert (V: version_id (Header (49 + len rest) format d) = version).
  { unfold version_id, VERSION_LEN. cbn [h_data]. unfold d. rewrite firstn_app, <- Lv, firstn_all, Nat.sub_diag. apply app_nil_r. }
  assert (P: skipn 41 d = rest).
  { unfold d. rewrite !app_assoc. rewrite skipn_app, skipn_all2 by (rewrite !app_length; cbn [length le32]; lia).
    rewrite !app_length, Lv. reflexivity. }
  assert (IL: image_length (Header (49 + len rest) format d) = total).
  { unfold image_length. cbn [h_data]. rewrite <- Lv. now apply of_le32. }
  assert (SL: signature_length (Header (49 + len rest) format d) = sig).
  { unfold signature_length. cbn [h_data]. pose proof (of_le32 sig (version ++ le32 total) ([id_len] ++ rest) Hsig) as X.
    rewrite app_length, Lv, <- app_assoc in X. exact X. }
  assert (N40: nth_error d 40 = Some id_len).
  { unfold d. rewrite nth_error_app2 by lia. rewrite Lv. reflexivity. }
  rewrite IL, SL, N40, V. unfold platform_bytes, FORMAT0_LEN, VERSION_LEN. cbn [h_length h_data]. rewrite P. split; [|auto].
  destruct (N.eqb_spec format 0) as [Z|Z].
  - destruct (G0 Z) as ((name & pad & V1 & V2 & V3) & (pl & P1 & P2) & P3).
    assert (S1: strnlen d 32 = Some (length name)).
    { unfold d. rewrite V1. rewrite <- app_assoc. cbn [app]. apply strnlen_text; auto.
      apply (f_equal (@length N)) in V1. rewrite app_length in V1. cbn in V1. lia. }
    rewrite S1. unfold len in LD at 1. rewrite LD, sub32_id by lia. rewrite P3.
    destruct (N.eqb_spec (41 + len rest - len rest) (N.of_nat 41)); [|lia]. cbn [negb].
    rewrite P1. rewrite strnlen_text by (auto; unfold len; rewrite app_length; cbn [length]; lia).
    assert (LP: len (pl ++ [0]) = N.of_nat (length pl) + 1) by (unfold len; rewrite app_length; cbn [length]; lia).
    rewrite LP. rewrite N.eqb_refl. cbn [negb]. rewrite <- LP, <- P1. rewrite sub32_id by lia.
    destruct (N.ltb_spec (total - (49 + len rest)) sig); [lia|].
    assert (NV: length name <> 32%nat /\ length name <> 0%nat).
    { apply (f_equal (@length N)) in V1. rewrite app_length in V1. cbn in V1. split; [lia|]. intros C.
      apply length_zero_iff_nil in C. contradiction. }
    destruct (Nat.eqb_spec (length name) 32); [lia|]. destruct (Nat.eqb_spec (length name) 0); [lia|]. reflexivity.
  - destruct (Nat.ltb_spec (length d) 41); [unfold len in LD; lia|]. reflexivity.
Qed.

Variable hash : list N -> list N.
Variable check_sig : list N -> list N -> sig_result.

Lemma hashed_ok : forall a n d, hashed m size rbad a n = Ok d -> 0 < n /\ a + n <= size /\ d = img_read m a (N.to_nat n).
Proof.
  intros a n d H. unfold hashed in H. destruct (N.eqb_spec n 0); [discriminate|]. destruct (N.ltb_spec size (a + n)); [discriminate|].
  destruct (hash_stream rbad (N.to_nat n) m a (N.to_nat n)) as [x|] eqn:E; [|discriminate]. injection H as <-.
  apply hash_stream_spec in E; [|lia]. split; [lia|]. split; [lia|]. exact E.
Qed.

Lemma hashed_at : forall a n, 0 < n -> a + n <= size -> (forall x, rbad x = false) ->
  hashed m size rbad a n = Ok (img_read m a (N.to_nat n)).
Proof.
  intros a n H L R. unfold hashed. destruct (N.eqb_spec n 0); [lia|]. destruct (N.ltb_spec size (a + n)); [lia|].
  rewrite hash_stream_total by auto. reflexivity.
Qed.

Lemma sub32_le : forall a b, a < 2 ^ 32 -> b < 2 ^ 32 -> (b <= a /\ sub32 a b = a - b) \/ (a < b /\ sub32 a b = a + 2 ^ 32 - b).
Proof. clear.
  intros a b Ha Hb. destruct (N.le_gt_cases b a) as [L|L]; [left; split; [auto|now apply sub32_id]|].
  right. split; [auto|]. unfold sub32. rewrite (N.mod_small b) by auto. apply N.mod_small. lia.
Qed.

Theorem verify_sound : bytes_img m -> forall fuel addr pfm cache, size <= 2 ^ 30 -> 
  verify m size rbad nomem hash check_sig fuel addr pfm = (cache, Some (Ok tt)) -> addr < 2 ^ 31 ->
  exists format version id_len rest body sig,
    good_header format version id_len rest /\
    let total := 49 + len rest + len body + len sig in
    let hdr := image_header format version total (len sig) id_len rest in
    addr + total <= size /\
    img_read m addr (N.to_nat total) = hdr ++ body ++ sig /\
    check_sig (hash (hdr ++ body)) sig = SigGood /\ cache = Some (hash (hdr ++ body)) /\
    (forall id, pfm = Some (Some id) -> platform_is rest id) /\ pfm <> Some None /\
    ((exists l, encodes body l /\ l <> [] /\ (within (2 ^ 32 - 1) l -> ascending l)) \/
     oversize_in m (addr + len hdr) (len body)).
Proof.
  intros B fuel addr pfm cache Hs H Ha. unfold verify in H.
  destruct (header_init m size rbad nomem addr) as [h|e|] eqn:HI; try discriminate.
  apply header_init_ok in HI; auto; [|lia].
  destruct HI as (version & id_len & rest & G & Hl & Hv & Hp & Hil & Hsl & Hsz & _ & HH).
  set (sl := signature_length h) in *. set (il := image_length h) in *.
  destruct (nomem sl); [discriminate|].
  destruct (flash_read m size rbad (w32 (sub32 (addr + il) sl)) sl) as [sig|e|] eqn:R; try discriminate.
  apply flash_read_ok in R. destruct R as (R1 & R2).
  destruct (N.eqb_spec sl 0) as [|S0]; [discriminate|].
  destruct (hashed m size rbad addr (sub32 il sl)) as [d|e|] eqn:HD; try discriminate. apply hashed_ok in HD.
  destruct HD as (D1 & D2 & D3).
  assert (Hle: sl <= il /\ sub32 il sl = il - sl).
  { destruct (sub32_le il sl Hil Hsl) as [?|(C & E)]; [auto|]. exfalso. lia. }
  destruct Hle as (Hle & Esub). rewrite Esub in *.
  destruct (check_sig (hash d) sig) eqn:CS; try discriminate. injection H as <- H.
  destruct (check_platform pfm h) as [[]|e|] eqn:CP; try discriminate.
  set (rem := s32 (Z.of_N (sub32 (sub32 il (h_length h)) sl))) in *.
  destruct (Z.leb_spec rem 0) as [|Rp]; [discriminate|].
  assert (HR: h_length h + sl < il /\ rem = Z.of_N (il - h_length h - sl)).
  { clear - Rp Hil Hsl Hle D2 Hs Hl G. assert (LR: len rest <= 975) by (destruct G as (_ & _ & _ & _ & _ & ? & _); auto).
    assert (HL: h_length h < 2 ^ 32) by lia.
    destruct (sub32_le il (h_length h) Hil HL) as [(C & E)|(C & E)].
    - unfold rem in *. rewrite E in *.
      assert (Q: il - h_length h < 2 ^ 32) by lia.
      destruct (sub32_le (il - h_length h) sl Q Hsl) as [(C2 & E2)|(C2 & E2)]; rewrite E2 in *.
      + rewrite s32_id in * by lia. split; [lia|reflexivity].
      + exfalso. unfold s32 in Rp. replace (Z.of_N (il - h_length h + 2 ^ 32 - sl) + 2 ^ 31)%Z with
          (Z.of_N (il - h_length h + 2 ^ 31 - sl) + 1 * 2 ^ 32)%Z in Rp by lia.
        rewrite Z.mod_add, Z.mod_small in Rp by lia. lia.
    - exfalso. unfold rem in Rp. rewrite E in Rp.
      assert (Q: il + 2 ^ 32 - h_length h < 2 ^ 32) by lia.
      destruct (sub32_le (il + 2 ^ 32 - h_length h) sl Q Hsl) as [(C2 & E2)|(C2 & E2)]; rewrite E2 in *; [|lia].
      unfold s32 in Rp. replace (Z.of_N (il + 2 ^ 32 - h_length h - sl) + 2 ^ 31)%Z with
        (Z.of_N (il + 2 ^ 31 - h_length h - sl) + 1 * 2 ^ 32)%Z in Rp by lia.
      rewrite Z.mod_add, Z.mod_small in Rp by lia. lia. }
  destruct HR as (HR1 & HR2). rewrite HR2 in H. rewrite w32_id in H by lia.
  apply check_sections_sound in H; auto; [|lia|reflexivity].
  rewrite sub32_id in R1, R2 by lia. rewrite w32_id in R1, R2 by lia.
  set (blen := il - h_length h - sl) in *.
  set (body := img_read m (addr + h_length h) (N.to_nat blen)) in *.
  assert (Lb: len body = blen) by (unfold len, body; rewrite length_img_read; lia).
  assert (Ls: len sig = sl) by (rewrite R2; unfold len; rewrite length_img_read; lia).
  assert (Lv: length version = 32%nat) by (destruct G as (? & _); auto).
  exists (h_format h), version, id_len, rest, body, sig. split; [exact G|]. cbn zeta.
  assert (Et: 49 + len rest + len body + len sig = il) by lia. rewrite Et, Ls.
  set (hdr := image_header (h_format h) version il sl id_len rest) in *.
  assert (Lh: len hdr = h_length h) by (unfold hdr; rewrite len_image_header by auto; lia).
  assert (Ed: d = hdr ++ body).
  { rewrite D3. replace (N.to_nat (il - sl)) with (N.to_nat (h_length h) + N.to_nat blen)%nat by lia.
    rewrite img_read_app, HH. f_equal. unfold body. f_equal. lia. }
  rewrite Ed in CS. split; [lia|]. split.
  { replace (N.to_nat il) with (N.to_nat (il - sl) + N.to_nat sl)%nat by lia. rewrite img_read_app, <- D3, Ed, <- app_assoc.
    do 2 f_equal. rewrite R2. f_equal. lia. }
  split; [exact CS|]. split; [now rewrite Ed|]. split; [|split].
  - intros id ->. cbn [check_platform] in CP. destruct (str_equal id (platform_bytes h)) as [[|]|] eqn:SE; try discriminate.
    apply str_equal_true in SE. rewrite Hp in SE. exact SE.
  - intros ->. discriminate.
  - rewrite Lh, Lb. destruct H as [(l & E & As)|O]; [|now right]. left. exists l. split; [exact E|]. split; [|exact As].
    intros ->. inversion E as [Q|]. apply (f_equal len) in Q. rewrite Lb in Q. change (len []) with 0 in Q. lia.
Qed.

(** What must hold of the flash for an image to be in it. *)
Lemma image_parts : forall addr hdr body sig, img_read m addr (length (hdr ++ body ++ sig)) = hdr ++ body ++ sig ->
  img_read m addr (length hdr) = hdr /\ img_read m (addr + len hdr) (length body) = body /\
  img_read m (addr + len hdr + len body) (length sig) = sig /\ img_read m addr (length (hdr ++ body)) = hdr ++ body.
Proof.
  intros addr hdr body sig H. pose proof H as H2. apply img_read_part in H. destruct H as (A & H). apply img_read_part in H.
  destruct H as (C & D). split; [auto|]. split; [auto|]. split; [auto|]. rewrite app_assoc in H2.
  now apply img_read_part in H2.
Qed.

Theorem verify_complete : forall addr format version id_len rest body sig l pfm,
  let total := 49 + len rest + len body + len sig in
  let hdr := image_header format version total (len sig) id_len rest in
  quiet -> size <= 2 ^ 30 -> addr + total <= size -> good_header format version id_len rest -> sig <> [] -> l <> [] ->
  img_read m addr (length (hdr ++ body ++ sig)) = hdr ++ body ++ sig ->
  encodes body l -> ascending l -> within (2 ^ 32 - 1) l ->
  check_sig (hash (hdr ++ body)) sig = SigGood ->
  (pfm = None \/ exists id, pfm = Some (Some id) /\ platform_is rest id) ->
  forall fuel, (length l < fuel)%nat ->
  verify m size rbad nomem hash check_sig fuel addr pfm = (Some (hash (hdr ++ body)), Some (Ok tt)).
Proof.
  intros addr format version id_len rest body sig l pfm total hdr Q Hs Ht G Ns Nl I E As Wn CS P fuel Hf.
  assert (Lv: length version = 32%nat) by (destruct G as (? & _); auto).
  assert (Lh: len hdr = 49 + len rest) by (unfold hdr; now rewrite len_image_header).
  assert (Ls: 0 < len sig) by (destruct sig; [contradiction|unfold len; cbn [length]; lia]).
  assert (Lb: 0 < len body).
  { destruct E; [contradiction|]. rewrite len_app, len_section_header. lia. }
  apply image_parts in I. destruct I as (I1 & I2 & I3 & I4).
  unfold verify. destruct (header_init_at addr format version total (len sig) id_len rest) as
    [(h & H1 & H2 & H3 & H4 & H5 & H6)|(NQ & _)]; auto; try lia; [|contradiction].
  rewrite H1, H2, H3, H4. destruct Q as (Q1 & Q2). rewrite Q2. unfold flash_read. rewrite Q1.
  rewrite sub32_id by lia. rewrite w32_id by lia.
  destruct (N.ltb_spec size (addr + total - len sig + len sig)); [lia|]. cbn [orb].
  destruct (N.eqb_spec (len sig) 0); [lia|]. rewrite (sub32_id total) by lia. rewrite hashed_at by (auto; lia).
  assert (E1: img_read m addr (N.to_nat (total - len sig)) = hdr ++ body).
  { transitivity (img_read m addr (length (hdr ++ body))); [|exact I4]. f_equal. rewrite app_length. unfold len in *. lia. }
  assert (E2: img_read m (addr + total - len sig) (N.to_nat (len sig)) = sig).
  { transitivity (img_read m (addr + len hdr + len body) (length sig)); [|exact I3]. f_equal; [lia|unfold len; lia]. }
  rewrite E1, E2, CS. f_equal.
  assert (CP: check_platform pfm h = Ok tt).
  { destruct P as [->|(id & -> & (more & P))]; [reflexivity|]. cbn [check_platform]. rewrite H6, P, str_equal_same. reflexivity. }
  rewrite CP. rewrite (sub32_id total) by lia. rewrite sub32_id by lia. rewrite s32_id by lia.
  destruct (Z.leb_spec (Z.of_N (total - (49 + len rest) - len sig)) 0); [lia|].
  replace (total - (49 + len rest) - len sig) with (len body) by lia. rewrite w32_id by lia.
  apply (check_sections_complete body l); auto; try lia; [split; auto|]. rewrite <- I2 at 2. f_equal. lia.
Qed.

(** No read beyond the header data. *)
Lemma strnlen_some : forall n l, (n <= length l)%nat -> exists k, strnlen l n = Some k.
Proof. clear.
  induction n as [|n IH]; intros l L; cbn [strnlen]; [eauto|]. destruct l as [|b t]; [cbn in L; lia|].
  destruct (b =? 0); [eauto|]. destruct (IH t) as (k & ->); [cbn in L; lia|eauto].
Qed.

Lemma header_init_safe : forall a, bytes_img m -> a + 8 < 2 ^ 32 ->
  (u16 (img_read m a 8) 2 = 0 -> 49 <= u16 (img_read m a 8) 0) ->
  header_init m size rbad nomem a <> Oob.
Proof.
  intros a B Ha Hl H. unfold header_init, bind in H.
  assert (NB: forall mk ok, load_header m size rbad nomem a mk ok <> Oob).
  { intros mk ok. unfold load_header, bind, flash_read. repeat (destruct (_ || _)); try discriminate;
      repeat match goal with |- context [if ?b then _ else _] => destruct b; try discriminate end. }
  destruct (load_header m size rbad nomem a IMAGE_MARKER (fun _ _ => true)) as [h|e|] eqn:L; try discriminate; [|now apply NB in L].
  pose proof L as L0. apply load_header_ok in L; [|auto|lia|reflexivity]. destruct L as (L & F & _ & SZ & D & Bd & I).
  assert (HF: h_length h = u16 (img_read m a 8) 0 /\ h_format h = u16 (img_read m a 8) 2).
  { assert (I2: img_read m a (length ((le16 (h_length h) ++ le16 (h_format h) ++ le32 IMAGE_MARKER) ++ h_data h)) =
      (le16 (h_length h) ++ le16 (h_format h) ++ le32 IMAGE_MARKER) ++ h_data h).
    { rewrite <- !app_assoc. rewrite <- I at 2. f_equal. rewrite !app_length. cbn [length le16 le32]. unfold len in D. lia. }
    apply img_read_part in I2. destruct I2 as (I2 & _).
    change (length (le16 (h_length h) ++ le16 (h_format h) ++ le32 IMAGE_MARKER)) with 8%nat in I2. rewrite I2. split; symmetry.
    - apply (of_le16 (h_length h) []). lia.
    - apply (of_le16 (h_format h) (le16 (h_length h))). lia. }
  destruct HF as (HF1 & HF2).
  destruct (N.eqb_spec (h_format h) 0) as [Z|Z].
  - assert (L41: (41 <= length (h_data h))%nat) by (rewrite HF2 in Z; specialize (Hl Z); unfold len in D; lia).
    destruct (strnlen_some 32 (h_data h)) as (k & K); [lia|]. unfold VERSION_LEN, FORMAT0_LEN in H. rewrite K in H.
    destruct (nth_error (h_data h) 40) as [il|] eqn:Q; [|apply nth_error_None in Q; lia].
    destruct (N.eqb_spec (sub32 (N.of_nat (length (h_data h))) il) (N.of_nat 41)) as [E|]; [|discriminate]. cbn [negb] in H.
    assert (il < 256). { unfold bytes_ok in Bd. rewrite Forall_forall in Bd. apply Bd. now apply nth_error_In in Q. }
    assert (LL: length (h_data h) = (41 + N.to_nat il)%nat).
    { destruct (sub32_le (N.of_nat (length (h_data h))) il) as [(C & E2)|(C & E2)]; unfold len in D; lia. }
    destruct (strnlen_some (N.to_nat il) (skipn 41 (h_data h))) as (j & J); [rewrite skipn_length; lia|]. rewrite J in H.
    destruct (negb _); [discriminate|]. destruct (_ <? _); [discriminate|]. destruct (_ || _); discriminate.
  - destruct (_ <? _)%nat; discriminate.
Qed.

Lemma str_equal_safe : forall a p, Forall (fun b => b <> 0) a -> Forall (fun b => b <> 0) p -> str_equal a (p ++ [0]) <> None.
Proof. clear.
  induction a as [|x a IH]; intros [|y p] Ha Hp; cbn [str_equal app]; try discriminate.
  - inversion Ha; subst. destruct (N.eqb_spec x 0); [contradiction|discriminate].
  - inversion Ha; inversion Hp; subst. destruct (x =? y); [now apply IH|discriminate].
Qed.

Lemma load_header_safe : forall a mk ok, load_header m size rbad nomem a mk ok <> Oob.
Proof.
  intros a mk ok. unfold load_header, bind, flash_read. repeat (destruct (_ || _)); try discriminate;
      repeat match goal with |- context [if ?b then _ else _] => destruct b; try discriminate end.
Qed.

Lemma check_sections_safe : forall fuel next rem low, check_sections m size rbad nomem fuel next rem low <> Some Oob.
Proof.
  induction fuel as [|f IH]; intros next rem low; [discriminate|]. cbn [check_sections].
  destruct (rem <=? 0)%Z; [destruct (rem <? 0)%Z; discriminate|].
  pose proof (load_header_safe next SECTION_MARKER (fun format n => if format =? 0 then n =? 8 else 8 <=? n)) as S.
  unfold section_init. destruct (load_header _ _ _ _ _ _ _); try discriminate; [|congruence].
  destruct (_ <? _); [discriminate|]. apply IH.
Qed.

Theorem verify_safe : bytes_img m -> forall fuel addr pfm, addr + 8 < 2 ^ 32 ->
  u16 (img_read m addr 8) 2 = 0 -> 49 <= u16 (img_read m addr 8) 0 -> (forall id, pfm = Some (Some id) -> text id) ->
  snd (verify m size rbad nomem hash check_sig fuel addr pfm) <> Some Oob.
Proof.
  intros B fuel addr pfm Ha Hf Hl Hp. unfold verify.
  pose proof (header_init_safe addr B Ha (fun _ => Hl)) as S.
  destruct (header_init m size rbad nomem addr) as [h|e|] eqn:HI; try discriminate; [|congruence].
  pose proof HI as HI2. apply header_init_ok in HI2; auto. destruct HI2 as (version & id_len & rest & G & Hlen & Hv & Hpl & _ & _ & _ & _ & HH).
  destruct (nomem _); [discriminate|]. unfold flash_read.
  destruct (_ || _); [discriminate|]. destruct (_ =? 0); [discriminate|].
  destruct (hashed m size rbad addr _) as [d|e|] eqn:HD; try discriminate.
  2:{ unfold hashed in HD. destruct (_ =? 0); [discriminate|]. destruct (_ <? _); [discriminate|].
      destruct (hash_stream _ _ _ _ _); discriminate. }
  destruct (check_sig _ _); try discriminate. cbn [snd].
  assert (CP: check_platform pfm h <> Oob).
  { destruct pfm as [[id|]|]; cbn [check_platform]; try discriminate. rewrite Hpl.
    assert (F0: h_format h = 0).
    { pose proof (len_image_header (h_format h) version (image_length h) (signature_length h) id_len rest) as LH.
      assert (Lv: length version = 32%nat) by (destruct G as (? & _); auto). specialize (LH Lv).
      assert (I2: img_read m addr (length (image_header (h_format h) version (image_length h) (signature_length h) id_len rest)) =
        image_header (h_format h) version (image_length h) (signature_length h) id_len rest).
      { rewrite <- HH at 2. f_equal. unfold len in *. lia. }
      unfold image_header in I2. rewrite (app_assoc (le16 _)) in I2. rewrite (app_assoc (_ ++ _) (le32 _)) in I2.
      apply img_read_part in I2. destruct I2 as (I2 & _). rewrite <- Hf.
      change (length ((le16 (49 + len rest) ++ le16 (h_format h)) ++ le32 2316598313)) with 8%nat in I2. rewrite I2.
      rewrite <- app_assoc. symmetry. apply (of_le16 (h_format h) (le16 (49 + len rest))).
      destruct G as (_ & _ & _ & ? & _); auto. }
    destruct G as (_ & _ & _ & _ & _ & _ & G0). destruct (G0 F0) as (_ & (pl & -> & T) & _).
    pose proof (str_equal_safe id pl) as SE.
    assert (X: forall l, text l -> Forall (fun b => b <> 0) l).
    { intros l. unfold text. rewrite !Forall_forall. intros X b Hb. apply X, Hb. }
    specialize (SE (X _ (Hp _ eq_refl)) (X _ T)). destruct (str_equal id (pl ++ [0])) as [[|]|]; try discriminate; congruence. }
  destruct (check_platform pfm h); try discriminate; [|congruence].
  destruct (_ <=? 0)%Z; [discriminate|]. apply check_sections_safe.
Qed.

(* Programming the flash of the host. *)
Variable rfail efail : N -> bool.
Variable wres : N -> option nat.
Variable page : N.

Lemma copy_section : forall t dest src n, 0 < page -> bytes_img m ->
  let '(t', r) := copy_region rfail efail wres (Some m) t dest src n false page page page true in
  (forall x, ~ (dest <= x < dest + N.of_nat n) -> t' x = t x) /\
  (r = FuOk -> img_read t' dest n = img_read m src n).
Proof.
  intros t dest src n Hp B. unfold copy_region. destruct n as [|k]; [split; auto|]. set (n := S k).
  destruct (MAX_COPY_BLOCK <? page); [split; [auto|discriminate]|].
  pose proof (copy_to_blank_spec rfail wres (Some m) t dest src n page true Hp B) as C.
  destruct (copy_to_blank rfail wres (Some m) t dest src n page true) as [t' r].
  destruct C as (C1 & C2); [discriminate|]. split; [exact C1|]. intros R. apply img_read_ext. intros i Hi.
  apply (C2 R); [now left|lia].
Qed.

Lemma apply_sections_spec : bytes_img m -> 0 < page -> forall body l, encodes body l -> forall fuel t next low,
  img_read m next (length body) = body -> next + len body <= size -> size <= 2 ^ 30 -> ascending_from low l ->
  let '(t', r) := apply_sections m size rbad nomem rfail efail wres page fuel t next (Z.of_N (len body)) in
  (forall x, (forall s, In s l -> ~ (s_addr s <= x < s_addr s + len (s_data s))) -> t' x = t x) /\
  (r = Some (Ok tt) -> forall s, In s l -> img_read t' (s_addr s) (length (s_data s)) = s_data s) /\
  (forall x, x < low -> t' x = t x).
Proof.
  intros B Hp. induction 1 as [|format host more data rest l Hz Hf Hm Hh Hn E IH]; intros fuel t next low I Hs Hz2 As.
  - destruct fuel; cbn [apply_sections]; (split; [auto|]; split; [intros _ s []|auto]).
  - destruct fuel as [|f]; cbn [apply_sections]; [split; [auto|]; split; [discriminate|auto]|].
    set (sh := section_header format host (len data) more) in *.
    assert (Lsh: len sh = 16 + len more) by apply len_section_header.
    assert (LB: len (sh ++ data ++ rest) = 16 + len more + len data + len rest) by (rewrite !len_app; lia).
    destruct (Z.leb_spec (Z.of_N (len (sh ++ data ++ rest))) 0); [lia|].
    apply img_read_part in I. destruct I as (I1 & I2). apply img_read_part in I2. destruct I2 as (I2 & I3).
    destruct (section_init_at next format host (len data) more) as [(h & S1 & S2 & S3 & S4)|(_ & e & S1)]; auto; try lia.
    2:{ rewrite S1. split; [auto|]. split; [discriminate|auto]. }
    rewrite S1, S2, S3, S4. cbn [ascending_from s_addr s_data] in As. destruct As as (A1 & A2).
    rewrite (w32_id (next + _)) by lia.
    pose proof (copy_section t host (next + (16 + len more)) (N.to_nat (len data)) Hp B) as C.
    destruct (copy_region rfail efail wres (Some m) t host (next + (16 + len more)) (N.to_nat (len data)) false page page page true)
      as [t1 r]. destruct C as (C1 & C2). rewrite N2Nat.id in C1.
    assert (Out: forall x, (forall s, In s (Section_ host data :: l) -> ~ (s_addr s <= x < s_addr s + len (s_data s))) -> t1 x = t x).
    { intros x Hx. apply C1. apply (Hx (Section_ host data)). now left. }
    assert (Low: forall x, x < low -> t1 x = t x) by (intros x Hx; apply C1; lia).
    destruct r; try (split; [exact Out|split; [discriminate|exact Low]]).
    rewrite (w32_id (16 + len more + len data)) by lia. rewrite (w32_id (next + _)) by lia. rewrite s32_id by lia.
    replace (Z.of_N (len (sh ++ data ++ rest)) - Z.of_N (16 + len more + len data))%Z with (Z.of_N (len rest)) by lia.
    specialize (IH f t1 (next + (16 + len more + len data)) (host + len data)).
    destruct (apply_sections m size rbad nomem rfail efail wres page f t1 (next + (16 + len more + len data)) (Z.of_N (len rest))) as [t2 r2].
    destruct IH as (J1 & J2 & J3); auto; [|lia|].
    { rewrite <- I3 at 2. f_equal. lia. }
    split; [|split].
    + intros x Hx. rewrite J1; [now apply Out|]. intros s Hin. apply Hx. now right.
    + intros R s [<-|Hin]; [|now apply J2]. cbn [s_addr s_data].
      transitivity (img_read t1 host (length data)).
      * apply img_read_ext. intros i Hi. apply J3. unfold len. lia.
      * specialize (C2 eq_refl). replace (N.to_nat (len data)) with (length data) in C2 by (unfold len; lia).
        transitivity (img_read m (next + (16 + len more)) (length data)); [exact C2|]. rewrite <- I2 at 2. f_equal. lia.
    + intros x Hx. rewrite J3 by lia. now apply Low.
Qed.

Theorem apply_spec : bytes_img m -> 0 < page -> forall addr format version id_len rest body sig l t,
  let total := 49 + len rest + len body + len sig in
  let hdr := image_header format version total (len sig) id_len rest in
  size <= 2 ^ 30 -> addr + total <= size -> good_header format version id_len rest ->
  img_read m addr (length (hdr ++ body ++ sig)) = hdr ++ body ++ sig -> encodes body l -> ascending l ->
  forall fuel, let '(t', r) := apply m size rbad nomem rfail efail wres page fuel t addr in
  (forall x, (forall s, In s l -> ~ (s_addr s <= x < s_addr s + len (s_data s))) -> t' x = t x) /\
  (r = Some (Ok tt) -> holds t' t l).
Proof.
  intros B Hp addr format version id_len rest body sig l t total hdr Hs Ht G I E As fuel.
  assert (Lv: length version = 32%nat) by (destruct G as (? & _); auto).
  assert (Lh: len hdr = 49 + len rest) by (unfold hdr; now rewrite len_image_header).
  apply image_parts in I. destruct I as (I1 & I2 & I3 & I4). unfold apply.
  destruct (header_init_at addr format version total (len sig) id_len rest) as
    [(h & H1 & H2 & H3 & H4 & H5 & H6)|(_ & e & H1)]; auto; try lia.
  2:{ rewrite H1. split; [auto|discriminate]. }
  rewrite H1, H2, H3, H4. rewrite (sub32_id total) by lia. rewrite sub32_id by lia. rewrite s32_id by lia. rewrite w32_id by lia.
  replace (total - (49 + len rest) - len sig) with (len body) by lia.
  pose proof (apply_sections_spec B Hp body l E fuel t (addr + (49 + len rest)) 0) as S.
  destruct (apply_sections m size rbad nomem rfail efail wres page fuel t (addr + (49 + len rest)) (Z.of_N (len body))) as [t' r].
  destruct S as (S1 & S2 & _); auto; [|lia|].
  { rewrite <- I2 at 2. f_equal. lia. }
  split; [exact S1|]. intros R. split; [now apply S2|exact S1].
Qed.

Lemma apply_sections_total : bytes_img m -> 0 < page <= MAX_COPY_BLOCK -> quiet ->
  (forall x, rfail x = false) -> (forall x, efail x = false) -> (forall x, exists n, wres x = Some n /\ (N.to_nat page <= n)%nat) ->
  forall body l, encodes body l -> forall fuel t next low,
  bytes_img t -> img_read m next (length body) = body -> next + len body <= size -> size <= 2 ^ 30 -> ascending_from low l ->
  within (2 ^ 32) l -> (forall s, In s l -> blank_on t (s_addr s) (len (s_data s))) -> (length l < fuel)%nat ->
  snd (apply_sections m size rbad nomem rfail efail wres page fuel t next (Z.of_N (len body))) = Some (Ok tt).
Proof.
  intros B Hp Q Hr He Hw. induction 1 as [|format host more data rest l Hz Hf Hm Hh Hn E IH]; intros fuel t next low Bt I Hs Hz2 As Wn Bl Hfu.
  - destruct fuel; [cbn in Hfu; lia|]. reflexivity.
  - destruct fuel as [|f]; [cbn in Hfu; lia|]. cbn [apply_sections].
    set (sh := section_header format host (len data) more) in *.
    assert (Lsh: len sh = 16 + len more) by apply len_section_header.
    assert (LB: len (sh ++ data ++ rest) = 16 + len more + len data + len rest) by (rewrite !len_app; lia).
    destruct (Z.leb_spec (Z.of_N (len (sh ++ data ++ rest))) 0); [lia|].
    apply img_read_part in I. destruct I as (I1 & I2). apply img_read_part in I2. destruct I2 as (I2 & I3).
    destruct (section_init_at next format host (len data) more) as [(h & S1 & S2 & S3 & S4)|(NQ & _)]; auto; try lia; [|contradiction].
    rewrite S1, S2, S3, S4. cbn [ascending_from s_addr s_data] in As. destruct As as (A1 & A2).
    inversion_clear Wn as [|? ? W1 W2]. cbn [s_addr s_data] in W1.
    rewrite (w32_id (next + _)) by lia.
    assert (BD: blank_on t host (len data)) by (apply (Bl (Section_ host data)); now left).
    pose proof (copy_section t host (next + (16 + len more)) (N.to_nat (len data)) (proj1 Hp) B) as C.
    pose proof (copy_region_total rfail efail wres Hr He page Hw (Some m) t host (next + (16 + len more)) (N.to_nat (len data)) false page true
      (proj1 Hp) (proj2 Hp) (proj1 Hp) Bt B) as T.
    rewrite N2Nat.id in T. specialize (T (fun _ _ => BD) ltac:(discriminate) ltac:(lia) ltac:(lia)).
    destruct (copy_region rfail efail wres (Some m) t host (next + (16 + len more)) (N.to_nat (len data)) false page page page true)
      as [t1 r]. cbn [snd] in T. subst r. destruct C as (C1 & C2). rewrite N2Nat.id in C1.
    rewrite (w32_id (16 + len more + len data)) by lia. rewrite (w32_id (next + _)) by lia. rewrite s32_id by lia.
    replace (Z.of_N (len (sh ++ data ++ rest)) - Z.of_N (16 + len more + len data))%Z with (Z.of_N (len rest)) by lia.
    apply (IH f t1 _ (host + len data)); auto; try lia; [| | |cbn in Hfu; lia].
    + intros x. destruct (in_dec N.eq_dec x []) as [[]|_].
      destruct (N.lt_ge_cases x host); [rewrite C1 by lia; apply Bt|].
      destruct (N.lt_ge_cases x (host + len data)); [|rewrite C1 by lia; apply Bt].
      specialize (C2 eq_refl). replace x with (host + N.of_nat (N.to_nat (x - host))) by lia.
      rewrite <- (nth_img t1 host (N.to_nat (len data))) by lia. rewrite C2, nth_img by lia. apply B.
    + rewrite <- I3 at 2. f_equal. lia.
    + intros s Hin x Hx. rewrite C1; [apply (Bl s); [now right|auto]|].
      assert (AF: forall l0 lo, ascending_from lo l0 -> In s l0 -> lo <= s_addr s).
      { induction l0 as [|s0 l0 IHl]; intros lo A Hin0; [destruct Hin0|]. cbn [ascending_from] in A. destruct A as (Aa & Ab).
        destruct Hin0 as [<-|Hin0]; [auto|]. specialize (IHl _ Ab Hin0). lia. }
      specialize (AF l (host + len data) A2 Hin). lia.
Qed.

Theorem apply_total : bytes_img m -> 0 < page <= MAX_COPY_BLOCK -> quiet ->
  (forall x, rfail x = false) -> (forall x, efail x = false) -> (forall x, exists n, wres x = Some n /\ (N.to_nat page <= n)%nat) ->
  forall addr format version id_len rest body sig l t,
  let total := 49 + len rest + len body + len sig in
  let hdr := image_header format version total (len sig) id_len rest in
  size <= 2 ^ 30 -> addr + total <= size -> good_header format version id_len rest ->
  img_read m addr (length (hdr ++ body ++ sig)) = hdr ++ body ++ sig -> encodes body l -> ascending l -> within (2 ^ 32) l ->
  bytes_img t -> (forall s, In s l -> blank_on t (s_addr s) (len (s_data s))) ->
  forall fuel, (length l < fuel)%nat ->
  snd (apply m size rbad nomem rfail efail wres page fuel t addr) = Some (Ok tt).
Proof.
  intros B Hp Q Hr He Hw addr format version id_len rest body sig l t total hdr Hs Ht G I E As Wn Bt Bl fuel Hf.
  assert (Lv: length version = 32%nat) by (destruct G as (? & _); auto).
  assert (Lh: len hdr = 49 + len rest) by (unfold hdr; now rewrite len_image_header).
  apply image_parts in I. destruct I as (I1 & I2 & I3 & I4). unfold apply.
  destruct (header_init_at addr format version total (len sig) id_len rest) as
    [(h & H1 & H2 & H3 & H4 & H5 & H6)|(NQ & _)]; auto; try lia; [|contradiction].
  rewrite H1, H2, H3, H4. rewrite (sub32_id total) by lia. rewrite sub32_id by lia. rewrite s32_id by lia. rewrite w32_id by lia.
  replace (total - (49 + len rest) - len sig) with (len body) by lia.
  apply (apply_sections_total B Hp Q Hr He Hw body l E _ _ _ 0); auto; [|lia]. rewrite <- I2 at 2. f_equal. lia.
Qed.
End P.
