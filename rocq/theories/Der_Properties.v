(** C57, C58, C59: ASN.1 items, signatures and keys in DER. *)
From Coq Require Import List NArith Lia Bool Arith ZifyBool ZifyNat ZifyN.
From Verif Require Import Base Der_Model Der_Spec Der_Proofs Der_Sig_Proofs Der_Asn1_Proofs Der_Key_Proofs Der_Decode_Proofs.
Import ListNotations.

(** ** C57 *)

(** Every 64-bit number is encoded as DER says.  If there is not enough room it fails; otherwise the rest of the buffer is as before. *)
Theorem C57_encode_integer : forall v buf, (v < 2 ^ 64)%N -> exists c, der_integer v c /\
  encode_integer v buf = if length buf <? length (tlv 2 c) then Err else Ret (tlv 2 c ++ skipn (length (tlv 2 c)) buf, length (tlv 2 c)).
Proof.
  intros v buf L. exists (int_content v). split; [apply int_content_der; auto|]. apply (encode_integer_spec v buf L).
Qed.
Print Assumptions C57_encode_integer.

(** There is one such encoding of each number. *)
Theorem C57_canonical : forall v c1 c2, der_integer v c1 -> der_integer v c2 -> c1 = c2.
Proof. exact der_integer_unique. Qed.
Print Assumptions C57_canonical.

(** A number is decoded only from an INTEGER item that is in the data as a whole; it is the number in the item, and the item is not of
    a negative number.  An access outside of the data takes data that ends with the length field. *)
Theorem C57_decode_integer : forall SIZE der, (2 ^ 32 <= SIZE)%N -> bytes_ok der -> (N.of_nat (length der) < SIZE / 2)%N ->
  match decode_integer SIZE der with
  | Ret v => (v < 2 ^ 64)%N /\ exists c e rest, der = e ++ rest /\ item 2 c e /\ be_value c = v /\ (nth 0 c 0 < 128)%N
  | Err => True
  | Over => exists f, der = 2%N :: f /\ 1 <= length f <= 5 /\ (length_field 0 f \/ exists n, length_field n f /\ (2 ^ 32 - 6 <= n)%N)
  end.
Proof.
  intros SIZE der W O S2. destruct (decode_integer_spec SIZE W der O S2) as [->|[(-> & E)|(f & c & rest & -> & F & L5 & _ & V & X & ->)]]; auto.
  split; auto. exists c, (2%N :: f ++ c), rest. cbn [app]. rewrite <- app_assoc. split; auto. split; auto. exists f. auto.
Qed.
Print Assumptions C57_decode_integer.

(** Every number in DER is decoded, also when it comes with a length field that is not the shortest. *)
Theorem C57_decode_all : forall SIZE v c e rest, (2 ^ 32 <= SIZE)%N -> (v < 2 ^ 64)%N -> der_integer v c -> item 2 c e ->
  decode_integer SIZE (e ++ rest) = Ret v.
Proof.
  intros SIZE v c e rest W V D (f & F & L5 & ->).
  assert (C: c = int_content v) by (eapply der_integer_unique; eauto; apply int_content_der; auto).
  destruct (int_content_der v V) as (_ & Lc). rewrite <- C in Lc.
  destruct D as (O & E & b & t & -> & B & M). cbn [app]. rewrite <- app_assoc. rewrite (decode_integer_run SIZE W f (b :: t) rest); auto.
  - now rewrite E.
  - intros L9. cbn [nth]. rewrite be_value_cons in E. cbn [length] in L9. replace (length t) with 8 in E by lia. change (256 ^ N.of_nat 8)%N with (2 ^ 64)%N in E.
    destruct (N.eq_dec b 0); auto. nia.
Qed.
Print Assumptions C57_decode_all.

(** Encoding and decoding an object identifier *)
Theorem C57_encode_oid : forall oid buf,
  encode_oid oid buf = if (length oid =? 0) || (127 <? length oid) || (length buf <? length (tlv 6 oid)) then Err
                       else Ret (tlv 6 oid ++ skipn (length (tlv 6 oid)) buf, length (tlv 6 oid)).
Proof.
  intros oid buf. unfold encode_oid. destruct (length oid =? 0) eqn:Z; auto. destruct (127 <? length oid) eqn:B; auto. cbn [orb].
  rewrite length_tlv. replace (length oid <? 128) with true by lia. destruct (length buf <? _) eqn:L; auto.
  destruct buf as [|a [|b r]]; try (cbn [length] in L; lia). cbn [length] in L.
  pose proof (wr_mid [] [a] (b :: r) [6%N] eq_refl) as W. cbn [length app] in W. rewrite W. cbn [bind]. clear W.
  pose proof (wr_mid [6%N] [b] r [N.of_nat (length oid)] eq_refl) as W. cbn [length app] in W. rewrite W. cbn [bind]. clear W.
  pose proof (wr_end [6%N; N.of_nat (length oid)] r oid) as W. cbn [length app] in W. rewrite W by lia. cbn [bind].
  unfold tlv, len_octets. replace (length oid <? 128) with true by lia. reflexivity.
Qed.
Print Assumptions C57_encode_oid.

(** An object identifier that is decoded is the contents of an item that is in the data as a whole, unless the length field says
    [2 ^ 32 - 6] or more. *)
Theorem C57_decode_oid : forall SIZE der p n, (2 ^ 32 <= SIZE)%N -> bytes_ok der -> (N.of_nat (length der) < SIZE / 2)%N ->
  decode_oid SIZE der = Ret (p, n) ->
  (exists c e rest, der = e ++ rest /\ item 6 c e /\ p = c ++ rest /\ N.of_nat (length c) = n) \/
  (exists f m, der = 6%N :: f ++ p /\ length_field m f /\ (2 ^ 32 - 6 <= m)%N).
Proof.
  intros SIZE der p n W O S2 E. destruct (get_item_fits SIZE W 6 der p n O S2 E) as (f & -> & L5 & [(F & B)|(B & F)]).
  - left. assert (Lc: length (firstn (N.to_nat n) p) = N.to_nat n) by (rewrite firstn_length; lia).
    exists (firstn (N.to_nat n) p), (6%N :: f ++ firstn (N.to_nat n) p), (skipn (N.to_nat n) p).
    cbn [app]. rewrite <- app_assoc, firstn_skipn. split; auto. split; [|split; [auto|lia]].
    exists f. rewrite Lc, N2Nat.id. auto.
  - right. exists f, (2 ^ 32 - (SIZE - n))%N. split; auto. split; auto. lia.
Qed.
Print Assumptions C57_decode_oid.

Theorem C57_decode_oid_all : forall SIZE c e rest, (2 ^ 32 <= SIZE)%N -> item 6 c e -> (N.of_nat (length c) < 2 ^ 31)%N ->
  decode_oid SIZE (e ++ rest) = Ret (c ++ rest, N.of_nat (length c)).
Proof.
  intros SIZE c e rest W (f & F & L5 & ->) B. cbn [app]. rewrite <- app_assoc. now apply get_item_run.
Qed.
Print Assumptions C57_decode_oid_all.

(** The length of an item with what follows it; if the item does not end in the data, the length of the data.  It is never more. *)
Theorem C57_encoded_length : forall SIZE, (2 ^ 32 <= SIZE)%N ->
  (forall der, (encoded_length SIZE der <= N.of_nat (length der))%N) /\
  (forall tag c e rest, item tag c e -> (N.of_nat (length e) < 2 ^ 31)%N -> encoded_length SIZE (e ++ rest) = N.of_nat (length e)) /\
  (forall tag f n body, length_field n f -> length f <= 5 -> (n < 2 ^ 31 - 6)%N -> (N.of_nat (length body) <= n)%N ->
     encoded_length SIZE (tag :: f ++ body) = N.of_nat (length (tag :: f ++ body))).
Proof.
  intros SIZE W. split; [|split].
  - intros der. unfold encoded_length. destruct (header SIZE der) as [[len h]| |]; try lia. cbn zeta. destruct (_ <=? _)%N eqn:L; lia.
  - intros tag c e rest (f & F & L5 & ->) B. unfold encoded_length. cbn [length app] in *. rewrite app_length in B.
    rewrite <- app_assoc, (header_run SIZE tag f _ (c ++ rest) F L5). cbn zeta. rewrite (of_int_small SIZE (N.of_nat (length c))) by lia.
    rewrite N.mod_small by lia. rewrite of_int_small by lia. rewrite !app_length.
    replace (N.of_nat (length c) + N.of_nat (S (length f)))%N with (N.of_nat (S (length f + length c))) by lia.
    destruct (_ <=? _)%N eqn:L; auto. lia.
  - intros tag f n body F L5 B Lb. unfold encoded_length. rewrite (header_run SIZE tag f n body F L5). cbn zeta.
    rewrite (of_int_small SIZE n) by lia. rewrite N.mod_small by lia. rewrite of_int_small by lia.
    cbn [length]. rewrite !app_length. replace (_ <=? _)%N with true by lia. reflexivity.
Qed.
Print Assumptions C57_encoded_length.

Example C57_example :
  encode_integer 0x80 (repeat 9%N 6) = Ret ([2; 2; 0; 128; 9; 9]%N, 4) /\ encode_integer 0 (repeat 9%N 3) = Ret ([2; 1; 0]%N, 3) /\
  encode_integer 0x123456 (repeat 9%N 4) = Err /\
  encode_integer (2 ^ 64 - 1) (repeat 9%N 11) = Ret ((2 :: 9 :: 0 :: repeat 255 8)%N, 11) /\
  decode_integer (2 ^ 64) [2; 0x82; 0; 2; 0; 128; 77]%N = Ret 128%N /\ decode_integer (2 ^ 32) [2; 1; 0x80]%N = Err /\
  encoded_length (2 ^ 32) [0x30; 0x81; 3; 1; 2; 3; 4; 5]%N = 6%N /\ decode_oid (2 ^ 64) [6; 2; 7; 8; 9]%N = Ret ([7; 8; 9]%N, 2%N).
Proof. repeat split; reflexivity. Qed.

(** An INTEGER without contents: a byte is read that is not part of the item, and after the end of the data if nothing follows. *)
Theorem C57_empty_integer_refuted : forall SIZE, (2 ^ 32 <= SIZE)%N ->
  decode_integer SIZE [2; 0]%N = Over /\
  (forall x rest, (x < 128)%N -> decode_integer SIZE (2 :: 0 :: x :: rest)%N = Ret 0%N) /\
  (forall x rest, (128 <= x < 256)%N -> decode_integer SIZE (2 :: 0 :: x :: rest)%N = Err).
Proof.
  intros SIZE W. unfold decode_integer, get_item, header, rd, skip.
  split; [|split]; intros; cbn [length Nat.ltb Nat.leb nth_error bind N.eqb Pos.eqb N.ltb N.compare Pos.compare Pos.compare_cont negb skipn N.of_nat];
    rewrite ?N.add_0_r; try replace (N.of_nat 2) with 2%N by reflexivity; rewrite N.mod_small by lia.
  - reflexivity.
  - replace (_ <? 2)%N with false by lia. cbn [bind nth_error]. rewrite testbit7 by (unfold byte_ok; lia). replace (128 <=? x)%N with false by lia. reflexivity.
  - replace (_ <? 2)%N with false by lia. cbn [bind nth_error]. rewrite testbit7 by (unfold byte_ok; lia). replace (128 <=? x)%N with true by lia. reflexivity.
Qed.
Print Assumptions C57_empty_integer_refuted.

(** A length of nearly four gigabytes wraps around in the check against the size of the data: an object identifier of that length is
    reported in data of six bytes. *)
Theorem C57_long_oid_refuted : forall SIZE, (2 ^ 32 <= SIZE)%N -> decode_oid SIZE [6; 0x84; 255; 255; 255; 250]%N = Ret ([], (SIZE - 6)%N).
Proof.
  intros SIZE W. unfold decode_oid, get_item, header, rd, skip. cbn [length Nat.ltb Nat.leb nth_error bind N.eqb Pos.eqb negb skipn].
  unfold of_int. change (_ <? 2 ^ 31)%N with false. cbn [N.of_nat].
  replace (255 * 16777216 + 255 * 65536 + 255 * 256 + 250 + (SIZE - 2 ^ 32))%N with (SIZE - 6)%N by lia.
  match goal with |- context [((?a + (SIZE - 6)) mod SIZE)%N] => replace (a + (SIZE - 6))%N with SIZE by lia end.
  rewrite N.mod_same by lia. reflexivity.
Qed.
Print Assumptions C57_long_oid_refuted.

(** Such a length also makes the length of an item zero. *)
Theorem C57_zero_length_refuted : forall SIZE tag, SIZE = (2 ^ 32)%N \/ SIZE = (2 ^ 64)%N -> encoded_length SIZE (tag :: [0x84; 255; 255; 255; 250])%N = 0%N.
Proof. intros SIZE tag [-> | ->]; reflexivity. Qed.
Print Assumptions C57_zero_length_refuted.

(** ** C58 *)

(** A signature is encoded as DER says; [r] and [s] are numbers of [k] bytes.  If there is not enough room it fails; otherwise the rest of the buffer is
    as before. *)
Theorem C58_encode : forall r s k buf, 0 < k <= 124 -> k <= length r -> k <= length s -> bytes_ok r -> bytes_ok s ->
  exists e, signature_der (be_value (firstn k r)) (be_value (firstn k s)) e /\
    encode_signature r s k buf = if length buf <? length e then Err else Ret (e ++ skipn (length e) buf, length e).
Proof.
  intros r s k buf K Lr Ls Br Bs. eexists. split; [|apply (encode_signature_spec r s k buf K Lr Ls Br Bs)].
  assert (NE: forall v : list N, k <= length v -> firstn k v <> []).
  { intros v L Z. assert (X: length (firstn k v) = k) by (rewrite firstn_length; lia). rewrite Z in X. cbn in X. lia. }
  exists (sig_content (firstn k r)), (sig_content (firstn k s)). split; [apply sig_content_der; auto; now apply Forall_firstn|].
  split; [apply sig_content_der; auto; now apply Forall_firstn|reflexivity].
Qed.
Print Assumptions C58_encode.

Lemma der_integer_length : forall v c n, der_integer v c -> (v < 128 * 256 ^ N.of_nat n)%N -> length c <= S n.
Proof.
  intros v c n (B & V & b & t & -> & X & M) L. cbn [length]. destruct (le_lt_dec (length t) n) as [|T]; [lia|exfalso].
  rewrite be_value_cons in V. destruct (N.eq_dec b 0) as [->|Z].
  - specialize (M eq_refl). destruct t as [|b2 t]; [cbn in T; lia|]. cbn [length] in T. rewrite be_value_cons in V.
    assert (256 ^ N.of_nat n <= 256 ^ N.of_nat (length t))%N by (apply N.pow_le_mono_r; lia). clear - V M L H. nia.
  - assert (256 ^ N.of_nat (S n) <= 256 ^ N.of_nat (length t))%N by (apply N.pow_le_mono_r; lia). rewrite pow_S in H. clear - V L H Z. nia.
Qed.

(** The maximum lengths that callers use for their buffers (ecc_der_util.h:99-101) are enough for every signature. *)
Theorem C58_max_length : forall r s e, signature_der r s e ->
  ((r < 2 ^ 256)%N -> (s < 2 ^ 256)%N -> length e <= 32 * 2 + 8) /\
  ((r < 2 ^ 384)%N -> (s < 2 ^ 384)%N -> length e <= 48 * 2 + 8) /\
  ((r < 2 ^ 521)%N -> (s < 2 ^ 521)%N -> length e <= 66 * 2 + 7).
Proof.
  intros r s e (cr & cs & Dr & Ds & ->).
  assert (G: forall n, n < 100 -> (r < 128 * 256 ^ N.of_nat n)%N -> (s < 128 * 256 ^ N.of_nat n)%N ->
            length (tlv 0x30 (tlv 2 cr ++ tlv 2 cs)) <= 2 * n + 6 + (if 2 * n + 6 <? 128 then 2 else 3)).
  { intros n L R S. pose proof (der_integer_length _ _ _ Dr R). pose proof (der_integer_length _ _ _ Ds S).
    rewrite length_tlv, app_length, !length_tlv. replace (length cr <? 128) with true by lia. replace (length cs <? 128) with true by lia.
    destruct (2 * n + 6 <? 128) eqn:E; destruct (2 + length cr + (2 + length cs) <? 128) eqn:E2; lia. }
  split; [|split]; intros R S.
  - apply (G 32); [lia| |]; eapply N.lt_le_trans; eauto; apply N.leb_le; reflexivity.
  - apply (G 48); [lia| |]; eapply N.lt_le_trans; eauto; apply N.leb_le; reflexivity.
  - apply (G 65); [lia| |]; eapply N.lt_le_trans; eauto; apply N.leb_le; reflexivity.
Qed.
Print Assumptions C58_max_length.

(** A signature is decoded only from a SEQUENCE of exactly two INTEGER items, which is in the data as a whole, and its numbers are those in the
    items.  No data leads to an access outside. *)
Theorem C58_decode : forall der k,
  match decode_signature der k with
  | Ret (r, s) => length r = k /\ length s = k /\
      exists cr cs er es e rest, der = e ++ rest /\ short_item 0x30 (er ++ es) e /\ short_item 2 cr er /\ short_item 2 cs es /\
        be_value cr = be_value r /\ be_value cs = be_value s
  | Err => True
  | Over => False
  end.
Proof.
  intros der k. destruct (decode_signature_spec der k) as [->|(h & hr & cr & hs & cs & rest & -> & Hh & Hr & Hs & Fr & Fs & ->)]; auto.
  destruct (sig_value_ok k cr Fr) as (A1 & A2). destruct (sig_value_ok k cs Fs) as (B1 & B2). split; auto. split; auto.
  exists cr, cs, (hr ++ cr), (hs ++ cs), (h ++ hr ++ cr ++ hs ++ cs), rest. rewrite <- !app_assoc. split; auto.
  split; [|split; [|split]]; auto using is_hdr_item.
Qed.
Print Assumptions C58_decode.

Lemma sig_value_bytes : forall k c, bytes_ok c -> bytes_ok (sig_value k c).
Proof.
  intros k c B. unfold sig_value.
  assert (Z: forall m, bytes_ok (repeat 0%N m)) by (intros; apply Forall_forall; intros y I; apply repeat_spec in I; subst; unfold byte_ok; lia).
  destruct (k <? length c); apply bytes_ok_app; split; auto. destruct c; auto. inversion B; auto.
Qed.

(** Every signature in DER, of numbers that fit, is decoded to its numbers, whatever follows it. *)
Theorem C58_decode_all : forall r s e rest k, signature_der r s e -> 0 < k <= 124 -> (r < 256 ^ N.of_nat k)%N -> (s < 256 ^ N.of_nat k)%N ->
  exists vr vs, decode_signature (e ++ rest) k = Ret (vr, vs) /\ length vr = k /\ length vs = k /\ bytes_ok vr /\ bytes_ok vs /\
    be_value vr = r /\ be_value vs = s.
Proof.
  intros r s e rest k (cr & cs & Dr & Ds & ->) K R U.
  assert (G: forall v c, der_integer v c -> (v < 256 ^ N.of_nat k)%N -> sig_fits k c /\ be_value c = v /\ 1 <= length c <= S k).
  { intros v c D V. pose proof (der_integer_length v c k D ltac:(lia)) as L. destruct D as (B & E & b & t & -> & X & M).
    split; [|split; [auto|cbn [length] in *; lia]]. destruct (Nat.eq_dec (length (b :: t)) (S k)) as [L'|L']; [right|left; lia].
    split; auto. cbn [nth length] in *. rewrite be_value_cons in E. replace (length t) with k in E by lia. destruct (N.eq_dec b 0); auto. clear - E V n. nia. }
  destruct (G _ _ Dr R) as (Fr & Vr & Lr). destruct (G _ _ Ds U) as (Fs & Vs & Ls).
  exists (sig_value k cr), (sig_value k cs).
  destruct (sig_value_ok k cr Fr) as (A1 & A2). destruct (sig_value_ok k cs Fs) as (B1 & B2).
  split; [|split; [auto|split; [auto|split; [apply sig_value_bytes; apply Dr|split; [apply sig_value_bytes; apply Ds|split; congruence]]]]].
  rewrite !tlv_hdr. rewrite <- !app_assoc.
  pose proof (decode_signature_run (hdr 48 (length (hdr 2 (length cr) ++ cr ++ hdr 2 (length cs) ++ cs))) (hdr 2 (length cr)) cr (hdr 2 (length cs)) cs rest k
    (is_hdr_hdr _ _) (is_hdr_hdr _ _) (is_hdr_hdr _ _) Fr Fs ltac:(lia)) as Z. rewrite <- !app_assoc in Z. exact Z.
Qed.
Print Assumptions C58_decode_all.

(** What was encoded is what is decoded. *)
Theorem C58_round_trip : forall r s k buf buf' n, 0 < k <= 124 -> length r = k -> length s = k -> bytes_ok r -> bytes_ok s ->
  encode_signature r s k buf = Ret (buf', n) -> n <= length buf' /\
  decode_signature (firstn n buf') k = Ret (r, s) /\ decode_signature buf' k = Ret (r, s).
Proof.
  intros r s k buf buf' n K Lr Ls Br Bs E. destruct (C58_encode r s k buf K ltac:(lia) ltac:(lia) Br Bs) as (e & D & X).
  rewrite E in X. destruct (_ <? _) eqn:L; [discriminate|]. inversion X; subst buf' n. clear X.
  rewrite !firstn_all2 in D by lia.
  pose proof (be_value_bound _ Br) as Ur. pose proof (be_value_bound _ Bs) as Us. rewrite Lr in Ur. rewrite Ls in Us.
  assert (Q: forall rest, decode_signature (e ++ rest) k = Ret (r, s)).
  { intros rest. destruct (C58_decode_all _ _ e rest k D K Ur Us) as (vr & vs & -> & L1 & L2 & O1 & O2 & V1 & V2).
    do 2 f_equal; apply be_value_inj; auto; congruence. }
  rewrite app_length. split; [lia|]. split; [|apply Q].
  rewrite firstn_app, Nat.sub_diag, firstn_all, firstn_O. apply Q.
Qed.
Print Assumptions C58_round_trip.

Definition some_r : list N := (0 :: 0 :: 0x80 :: repeat 0x11 29)%N.
Definition some_s : list N := (0x90 :: repeat 0x22 31)%N.

Example C58_example : exists b,
  encode_signature some_r some_s 32 (repeat 9%N 71) = Ret (b, 70) /\ skipn 70 b = [9%N] /\
  firstn 6 b = [0x30; 68; 2; 31; 0; 0x80]%N /\ decode_signature (firstn 70 b ++ [1; 2; 3]%N) 32 = Ret (some_r, some_s) /\
  encode_signature some_r some_s 32 (repeat 9%N 69) = Err.
Proof. eexists. split; [reflexivity|]. repeat split; reflexivity. Qed.

(** With the length in two bytes, as for the largest curve *)
Example C58_example_521 : exists e,
  encode_signature (1 :: repeat 0xff 65)%N (1 :: repeat 0xee 65)%N 66 (repeat 9%N 139) = Ret (e, 139) /\ firstn 3 e = [0x30; 0x81; 136]%N /\
  decode_signature e 66 = Ret (1 :: repeat 0xff 65, 1 :: repeat 0xee 65)%N /\
  encode_signature (1 :: repeat 0xff 65)%N (1 :: repeat 0xee 65)%N 66 (repeat 9%N 138) = Err.
Proof. eexists. split; [reflexivity|]. repeat split; reflexivity. Qed.

(** Not only DER is accepted: negative numbers are taken for positive ones, and numbers may have too many bytes, or none, so that one
    signature has several encodings. *)
Theorem C58_not_canonical_refuted :
  decode_signature [0x30; 6; 2; 1; 0x81; 2; 1; 1]%N 2 = Ret ([0; 0x81], [0; 1])%N /\
  decode_signature [0x30; 7; 2; 2; 0; 0x81; 2; 1; 1]%N 2 = Ret ([0; 0x81], [0; 1])%N /\
  decode_signature [0x30; 8; 2; 3; 0; 0; 0x81; 2; 1; 1]%N 2 = Ret ([0; 0x81], [0; 1])%N /\
  decode_signature [0x30; 0x81; 6; 2; 1; 0x81; 2; 1; 1]%N 2 = Ret ([0; 0x81], [0; 1])%N /\
  decode_signature [0x30; 5; 2; 0; 2; 1; 1]%N 2 = Ret ([0; 0], [0; 1])%N.
Proof. repeat split; reflexivity. Qed.
Print Assumptions C58_not_canonical_refuted.

(** ** C59 *)

(** Public keys are encoded as RFC 5480 says, if there is enough room. *)
Theorem C59_encode_public : forall k oid x y buf, curve k oid -> k <= length x -> k <= length y ->
  let e := public_key_der oid (firstn k x) (firstn k y) in
  encode_public_key x y k buf = if length buf <? length e then Err else Ret (e ++ skipn (length e) buf, length e).
Proof. exact encode_public_key_spec. Qed.
Print Assumptions C59_encode_public.

(** Private keys are encoded as SEC 1 says, if there is enough room. *)
Theorem C59_encode_private : forall k oid d pub buf, curve k oid -> k <= length d ->
  match pub with Some (x, y) => k <= length x /\ k <= length y | None => True end ->
  let e := private_key_der oid (firstn k d) (match pub with Some (x, y) => Some (firstn k x, firstn k y) | None => None end) in
  encode_private_key d pub k buf = if length buf <? length e then Err else Ret (e ++ skipn (length e) buf, length e).
Proof. exact encode_private_key_spec. Qed.
Print Assumptions C59_encode_private.

(** Keys of other lengths are refused. *)
Theorem C59_other_lengths : forall k x y d pub buf, k <> 32 -> k <> 48 -> k <> 66 ->
  encode_public_key x y k buf = Err /\ encode_private_key d pub k buf = Err.
Proof.
  intros k x y d pub buf A B C. unfold encode_public_key, encode_private_key.
  replace (k =? 32) with false by lia. replace (k =? 48) with false by lia. replace (k =? 66) with false by lia. auto.
Qed.
Print Assumptions C59_other_lengths.

(** The lengths in ecc_der_util.h:23-31 and 66-69 are those of the encodings. *)
Theorem C59_lengths : forall k oid x y d, curve k oid -> length x = k -> length y = k -> length d = k ->
  length (public_key_der oid x y) = (if k =? 32 then 32 * 2 + 27 else if k =? 48 then 48 * 2 + 24 else 66 * 2 + 26) /\
  length (private_key_der oid d (Some (x, y))) = (if k =? 32 then 32 * 3 + 25 else if k =? 48 then 48 * 3 + 23 else 66 * 3 + 25) /\
  length (private_key_der oid d None) = (if k =? 32 then 32 + 19 else if k =? 48 then 48 + 16 else 66 + 16).
Proof.
  intros k oid x y d C Lx Ly Ld. unfold public_key_der, private_key_der.
  repeat (rewrite !length_tlv || rewrite !app_length || cbn [length]). rewrite Lx, Ly, Ld.
  destruct C as [(-> & ->)|[(-> & ->)|(-> & ->)]]; repeat split; reflexivity.
Qed.
Print Assumptions C59_lengths.

(** What was encoded is decoded again, whatever follows it. *)
Theorem C59_round_trip : forall k oid x y d pub rest room, curve k oid -> length x = k -> length y = k -> length d = k -> k <= room ->
  decode_public_key (public_key_der oid x y ++ rest) room = Ret (x, y) /\
  decode_private_key (private_key_der oid d pub ++ rest) room = Ret d.
Proof.
  intros. split; [eapply decode_public_key_der; eauto|eapply decode_private_key_der; eauto].
Qed.
Print Assumptions C59_round_trip.

(** A public key is decoded only from data with the algorithm and the curve for keys of its length, and a BIT STRING that has the coordinates as a point that is
    not compressed, and at most one byte more.  The buffers of the caller are not exceeded.  No data leads to an access outside. *)
Theorem C59_decode_public : forall der room,
  match decode_public_key der room with
  | Ret (x, y) => exists h1 h2 ea ec eb oid z pad rest, der = h1 ++ h2 ++ ea ++ ec ++ eb ++ rest /\
      short_header 0x30 h1 /\ short_header 0x30 h2 /\ short_item 6 ec_public_key ea /\ short_item 6 oid ec /\ curve (length x) oid /\
      short_item 3 (z :: 4 :: x ++ y ++ pad)%N eb /\ length y = length x /\ length pad <= 1 /\ length x <= room
  | Err => True
  | Over => False
  end.
Proof.
  intros der room. pose proof (decode_public_key_safe der room) as S. destruct (decode_public_key der room) as [[x y]| |] eqn:E; auto.
  destruct (decode_public_key_sound der room x y E) as (k & point & rest & pad & F & -> & Lx & Ly & Lp & R).
  destruct F as (h1 & h2 & ea & ec & hb & oid & z & -> & H1 & H2 & A & C & O & B & _).
  exists h1, h2, ea, ec, (hb ++ (z :: 4 :: x ++ y ++ pad)%N), oid, z, pad, rest. rewrite <- !app_assoc. cbn [app].
  split; [cbn [app]; rewrite <- ?app_assoc; reflexivity|]. rewrite Lx, Ly. repeat (split; [assumption|]). split; [|repeat split; auto; lia]. apply is_hdr_item. exact B.
Qed.
Print Assumptions C59_decode_public.

(** A private key is decoded only from data with version 1, an OCTET STRING, and the curve for keys of its length.  The string is the key; encoders that treat the
    key as an integer may have added or left out a first byte of zero. *)
Theorem C59_decode_private : forall der room d, decode_private_key der room = Ret d ->
  length d <= room /\ exists h ev ed ha eo oid c rest, der = h ++ ev ++ ed ++ ha ++ eo ++ rest /\
    short_header 0x30 h /\ short_item 2 [1%N] ev /\ short_item 4 c ed /\ short_header 0xa0 ha /\ short_item 6 oid eo /\ curve (length d) oid /\
    (c = d \/ c = 0%N :: d /\ length d < 66 \/ d = 0%N :: c /\ length d = 66).
Proof.
  intros der room d E. destruct (decode_private_key_sound der room d E) as (c & rest & (h & ev & ed & ha & eo & oid & -> & A & B & C & D & F & G) & R & X).
  split; auto. exists h, ev, ed, ha, eo, oid, c, rest. repeat (split; [auto|]). auto.
Qed.
Print Assumptions C59_decode_private.

(** Only data with such an added byte leads to an access outside. *)
Theorem C59_decode_private_reads : forall der room, decode_private_key der room = Over ->
  exists h ev hd key rest, der = h ++ ev ++ hd ++ (0%N :: key) ++ rest /\ short_header 0x30 h /\ short_item 2 [1%N] ev /\
    (hd = [4; N.of_nat (S (length key))]%N \/ hd = [4; 0x81; N.of_nat (S (length key))]%N) /\ (length key = 32 \/ length key = 48).
Proof.
  intros der room E. destruct (decode_private_key_over der room E) as (h & ev & hd & key & rest & D & A & B & C & K).
  exists h, ev, hd, key, rest. do 3 (split; [auto|]). split; auto. destruct C as [(-> & _)| ->]; auto.
Qed.
Print Assumptions C59_decode_private_reads.

Definition some_x : list N := repeat 0x11%N 48.
Definition some_y : list N := repeat 0x22%N 48.
Definition some_d : list N := repeat 0x33%N 48.

Example C59_example : exists e, encode_public_key some_x some_y 48 (repeat 9%N 121) = Ret (e, 120) /\ skipn 120 e = [9%N] /\
  firstn 8 e = [0x30; 118; 0x30; 16; 6; 7; 0x2a; 0x86]%N /\ decode_public_key e 66 = Ret (some_x, some_y) /\ decode_public_key e 47 = Err /\
  encode_public_key some_x some_y 48 (repeat 9%N 119) = Err.
Proof. eexists. split; [reflexivity|]. repeat split; reflexivity. Qed.

Example C59_example_private : exists e, encode_private_key some_d (Some (some_x, some_y)) 48 (repeat 9%N 167) = Ret (e, 167) /\
  firstn 8 e = [0x30; 0x81; 164; 2; 1; 1; 4; 48]%N /\ decode_private_key e 48 = Ret some_d.
Proof. eexists. split; [reflexivity|]. repeat split; reflexivity. Qed.

(** A key of 32 bytes with an added zero, in data that ends one byte before the end of the name of the curve: the byte after the data is
    read, and the key is accepted or not depending on it. *)
Definition padded_key : list N := [0x30; 49; 2; 1; 1; 4; 33; 0]%N ++ repeat 7%N 32 ++ [0xa0; 10; 6; 8; 0x2a; 0x86; 0x48; 0xce; 0x3d; 0x03; 0x01]%N.

(** The byte of padding is not counted when the length that is left is reduced (ecc_der_util.c:322-323, 339-340 and 371): a truncated private key leads to a read after the end of the data. *)
Theorem C59_padded_key_refuted : decode_private_key padded_key 66 = Over /\ decode_private_key (padded_key ++ [7%N]) 66 = Ret (repeat 7%N 32).
Proof. split; reflexivity. Qed.
Print Assumptions C59_padded_key_refuted.

(** The lengths of the items around are not compared with what is in them, the number of unused bits is ignored, and one byte may follow the
    point: other data than DER is accepted as a public key. *)
Theorem C59_not_canonical_refuted : forall x y pad, length x = 32 -> length y = 32 -> length pad <= 1 ->
  decode_public_key ([0x30; 0; 0x30; 0]%N ++ tlv 6 ec_public_key ++ tlv 6 P256_OID ++ tlv 3 (7 :: 4 :: x ++ y ++ pad)%N) 32 = Ret (x, y).
Proof.
  intros x y pad Lx Ly Lp. unfold decode_public_key. rewrite !tlv_hdr, <- !app_assoc.
  change ([0x30; 0; 0x30; 0]%N) with ([0x30; N.of_nat 0]%N ++ [0x30; N.of_nat 0]%N). rewrite <- app_assoc.
  pose proof (public_key_no_copy_run [0x30; N.of_nat 0]%N [0x30; N.of_nat 0]%N (hdr 6 (length ec_public_key)) P256_OID (hdr 6 (length P256_OID))
    (hdr 3 (length (7 :: 4 :: x ++ y ++ pad)%N)) 7%N 4%N (x ++ y ++ pad) [] 0 0 32) as R. rewrite !app_nil_r in R.
  rewrite R; clear R; try (left; split; [reflexivity|lia]); try apply is_hdr_hdr; try lia.
  - cbn [bind]. unfold rd. cbn [nth_error bind N.eqb Pos.eqb negb]. unfold skip at 1. cbn [length Nat.leb skipn bind].
    replace ((S (length (x ++ y ++ pad)) - 1) / 2) with 32.
    2: { rewrite !app_length, Lx, Ly. destruct pad as [|p [|]]; cbn [length] in *; try reflexivity. lia. }
    cbn [Nat.ltb Nat.leb]. rewrite rds_app by auto. cbn [bind]. rewrite skip_app by auto. cbn [bind]. rewrite rds_app by auto. reflexivity.
  - left. split; reflexivity.
  - rewrite !app_length. lia.
Qed.
Print Assumptions C59_not_canonical_refuted.
