(** Keys. *)
From Coq Require Import List NArith Lia Bool Arith ZifyBool ZifyNat ZifyN.
From Verif Require Import Base Der_Model Der_Spec Der_Proofs.
Import ListNotations.

(** ** Steps that append to what is there *)
Definition step := list N -> nat -> nat -> res (list N * nat * nat).
Definition seq (a b : step) : step := fun buf pos len => bind (a buf pos len) (fun '(buf, pos, len) => b buf pos len).
Definition appends (op : step) (t : list N) : Prop := forall w r,
  op (w ++ r) (length w) (length r)
  = if length r <? length t then Err else Ret ((w ++ t) ++ skipn (length t) r, length (w ++ t), length r - length t).

Lemma appends_seq : forall a b t u, appends a t -> appends b u -> appends (seq a b) (t ++ u).
Proof.
  intros a b t u A B w r. unfold seq. rewrite A. rewrite (app_length t u). destruct (length r <? length t) eqn:E.
  { replace (length r <? _) with true by lia. reflexivity. }
  cbn [bind]. rewrite <- (skipn_length (length t) r), B, !app_length. rewrite skipn_length.
  destruct (length r - length t <? length u) eqn:F.
  { replace (length r <? _) with true by lia. reflexivity. }
  replace (length r <? _) with false by lia. rewrite <- !app_assoc, skipn_skipn. repeat (f_equal; try lia).
Qed.

Lemma appends_hdr : forall a type n t, appends a t -> n < 256 -> 1 <= length t -> appends (seq (add_tag type n None) a) (hdr type n ++ t).
Proof.
  intros a type n t A L T w r. unfold seq. rewrite add_tag_none by auto. pose proof (length_hdr type n) as LH. rewrite (app_length _ t).
  assert (2 <= length (hdr type n) <= 3) by (destruct (n <? 128); lia). clear LH. set (h := hdr type n) in *.
  destruct (length r <? 3) eqn:E. { replace (length r <? _) with true by lia. reflexivity. }
  cbn [bind]. rewrite <- (skipn_length (length h) r), A, !app_length. rewrite skipn_length.
  destruct (length r - length h <? length t) eqn:F.
  { replace (length r <? _) with true by lia. reflexivity. }
  replace (length r <? _) with false by lia. rewrite <- !app_assoc, skipn_skipn. repeat (f_equal; try lia).
Qed.

Lemma appends_tlv : forall type d, 0 < length d < 256 -> appends (add_tag type (length d) (Some d)) (tlv type d).
Proof. intros type d L w r. rewrite add_tag_some; auto; [lia|]. intros ->. cbn in L. lia. Qed.

(** Data of which only the first bytes are used *)
Lemma appends_tlv_firstn : forall type k d, 0 < k < 256 -> k <= length d -> appends (add_tag type k (Some d)) (tlv type (firstn k d)).
Proof.
  intros type k d K L w r. assert (Lv: length (firstn k d) = k) by (rewrite firstn_length; lia).
  rewrite <- (add_tag_some type (firstn k d) w r); [|lia|intros Z; rewrite Z in Lv; cbn in Lv; lia].
  rewrite Lv, !add_tag_data. rewrite !rds_ok by lia. rewrite firstn_firstn, Nat.min_id. reflexivity.
Qed.

Lemma appends_bit_string : forall x y k, 0 < k <= 126 -> k <= length x -> k <= length y ->
  appends (add_bit_string x y k) (tlv 3 (0 :: 4 :: firstn k x ++ firstn k y)%N).
Proof.
  intros x y k K Lx Ly. rewrite tlv_hdr. cbn [length]. rewrite app_length, !firstn_length.
  replace (S (S (Nat.min k (length x) + Nat.min k (length y)))) with (k * 2 + 2) by lia.
  assert (X: length (firstn k x) = k) by (rewrite firstn_length; lia). assert (Y: length (firstn k y) = k) by (rewrite firstn_length; lia).
  apply (appends_hdr (fun buf pos len => if len <? 2 + k * 2 then Err
    else
    buf <- wr buf pos [0; 4]%N;
    x <- rds x k;
    buf <- wr buf (pos + 2) x;
    y <- rds y k;
    buf <- wr buf (pos + 2 + k) y;
    len <- sub len (2 + k * 2);
    Ret (buf, pos + 2 + k + k, len))); [|lia|cbn [length]; lia].
  intros w r. cbn [length]. rewrite app_length, X, Y.
  destruct (length r <? 2 + k * 2) eqn:E. { replace (_ <? _) with true by lia. reflexivity. }
  replace (_ <? _) with false by lia.
  rewrite wr_end by (cbn [length]; lia). cbn [bind]. rewrite !rds_ok by lia. cbn [bind].
  rewrite wr_end' by (rewrite ?app_length, ?skipn_length; cbn [length]; lia). cbn [bind]. rewrite X.
  rewrite wr_end' by (rewrite ?app_length, ?skipn_length; cbn [length]; lia). cbn [bind]. rewrite Y.
  rewrite sub_ok by lia. cbn [bind]. rewrite !skipn_skipn, !app_length. cbn [length]. rewrite !app_length, X, Y. rewrite <- !app_assoc. cbn [app]. rewrite <- !app_assoc.
  repeat (f_equal; try lia).
Qed.

(** Putting the length of everything in *)
Definition patch (hl : nat) (buf : list N) (pos len : nat) : res (list N * nat) :=
  n <- sub pos hl;
  buf <- wr buf (hl - 1) [(N.of_nat n mod 256)%N];
  l <- rd buf (hl - 1);
  Ret (buf, N.to_nat l + hl).

Lemma patch_spec : forall op n body buf, appends op (hdr 0x30 n ++ body) ->
  (n = 0 /\ length body < 128 \/ n = 128 /\ 128 <= length body < 256) ->
  bind (op buf 0 (length buf)) (fun '(buf, pos, len) => patch (if n =? 0 then 2 else 3) buf pos len)
  = if length buf <? length (tlv 0x30 body) then Err else Ret (tlv 0x30 body ++ skipn (length (tlv 0x30 body)) buf, length (tlv 0x30 body)).
Proof.
  intros op n body buf A [(-> & L)|(-> & L)]; rewrite length_tlv; specialize (A [] buf); cbn [app length] in A; rewrite A; clear A; rewrite app_length.
  - replace (length body <? 128) with true by lia. change (hdr 48 0) with [48; 0]%N. cbn [length].
    destruct (length buf <? 2 + length body) eqn:E; [reflexivity|]. cbn [bind Nat.eqb]. unfold patch.
    rewrite sub_ok by (cbn [app length]; lia). cbn [bind].
    change (([48; 0]%N ++ body) ++ skipn (2 + length body) buf) with ([48%N] ++ [0%N] ++ (body ++ skipn (2 + length body) buf)).
    change (2 - 1) with (length [48%N]). rewrite wr_mid by reflexivity. cbn [bind]. unfold rd. cbn [length app nth_error bind].
    replace (S (S (length body)) - 2) with (length body) by lia. rewrite N.mod_small by lia. rewrite Nat2N.id.
    unfold tlv, len_octets. replace (length body <? 128) with true by lia. cbn [app]. repeat (f_equal; try lia).
  - replace (length body <? 128) with false by lia. change (hdr 48 128) with [48; 0x81; 128]%N. cbn [length].
    destruct (length buf <? 3 + length body) eqn:E; [reflexivity|]. cbn [bind Nat.eqb]. unfold patch.
    rewrite sub_ok by (cbn [app length]; lia). cbn [bind].
    change (([48; 0x81; 128]%N ++ body) ++ skipn (3 + length body) buf) with ([48; 0x81]%N ++ [128%N] ++ (body ++ skipn (3 + length body) buf)).
    change (3 - 1) with (length [48; 0x81]%N). rewrite wr_mid by reflexivity. cbn [bind]. unfold rd. cbn [length app nth_error bind].
    replace (S (S (S (length body))) - 3) with (length body) by lia. rewrite N.mod_small by lia. rewrite Nat2N.id.
    unfold tlv, len_octets. replace (length body <? 128) with false by lia. cbn [app]. repeat (f_equal; try lia).
Qed.

(** ** Public keys *)
Lemma curve_256 : oid_of [1; 2; 840; 10045; 3; 1; 7]%N = P256_OID. Proof. reflexivity. Qed.
Lemma curve_384 : oid_of [1; 3; 132; 0; 34]%N = P384_OID. Proof. reflexivity. Qed.
Lemma curve_521 : oid_of [1; 3; 132; 0; 35]%N = P521_OID. Proof. reflexivity. Qed.
Lemma ec_key : ec_public_key = EC_PUBLIC_KEY_OID. Proof. reflexivity. Qed.

Lemma encode_public_key_spec : forall k oid x y buf, curve k oid -> k <= length x -> k <= length y ->
  let e := public_key_der oid (firstn k x) (firstn k y) in
  encode_public_key x y k buf = if length buf <? length e then Err else Ret (e ++ skipn (length e) buf, length e).
Proof.
  intros k oid x y buf C Lx Ly e.
  set (n := if k =? 66 then 128 else 0). set (al := if k =? 32 then 0x13 else 0x10).
  assert (K: 0 < k <= 126) by (destruct C as [(-> & _)|[(-> & _)|(-> & _)]]; lia).
  assert (Lo: 0 < length oid < 256) by (destruct C as [(_ & ->)|[(_ & ->)|(_ & ->)]]; cbn; lia).
  set (body := tlv 0x30 (tlv 6 ec_public_key ++ tlv 6 oid) ++ tlv 3 (0 :: 4 :: firstn k x ++ firstn k y)%N).
  pose (op := seq (add_tag 0x30 n None) (seq (seq (add_tag 0x30 al None)
    (seq (add_tag 0x06 (length EC_PUBLIC_KEY_OID) (Some EC_PUBLIC_KEY_OID)) (add_tag 0x06 (length oid) (Some oid)))) (add_bit_string x y k))).
  assert (E: encode_public_key x y k buf = bind (op buf 0 (length buf)) (fun '(buf, pos, len) => patch (if n =? 0 then 2 else 3) buf pos len)).
  { unfold encode_public_key, op, seq, n, al. unfold curve in C. rewrite curve_256, curve_384, curve_521 in C.
    destruct C as [(-> & ->)|[(-> & ->)|(-> & ->)]]; cbn [Nat.eqb bind];
      (destruct (add_tag _ _ _ buf _ _) as [[[b1 p1] l1]| |]; cbn [bind]; auto; destruct (add_tag _ _ _ b1 _ _) as [[[b2 p2] l2]| |]; cbn [bind]; auto;
       destruct (add_tag _ _ _ b2 _ _) as [[[b3 p3] l3]| |]; cbn [bind]; auto; destruct (add_tag _ _ _ b3 _ _) as [[[b4 p4] l4]| |]; cbn [bind]; auto). }
  rewrite E. apply patch_spec.
  - unfold op. apply appends_hdr; [|unfold n; destruct (k =? 66); lia|].
    + unfold body. apply appends_seq; [|apply appends_bit_string; auto]. rewrite tlv_hdr.
      replace (length (tlv 6 ec_public_key ++ tlv 6 oid)) with al.
      2: { rewrite app_length, !length_tlv. unfold al. destruct C as [(-> & ->)|[(-> & ->)|(-> & ->)]]; reflexivity. }
      apply appends_hdr; [|unfold al; destruct (k =? 32); lia|rewrite app_length, !length_tlv; destruct (length oid <? 128); lia].
      apply appends_seq; [apply appends_tlv; cbn; lia|apply appends_tlv; auto].
    + unfold body. rewrite app_length, length_tlv. destruct (_ <? 128); lia.
  - unfold body. rewrite app_length, !length_tlv, !app_length, !length_tlv. cbn [length]. rewrite !app_length, !firstn_length.
    unfold n. destruct C as [(-> & ->)|[(-> & ->)|(-> & ->)]]; cbn [Nat.eqb length oid_of ec_public_key].
    + left. split; auto. rewrite !Nat.min_l by lia. vm_compute. lia.
    + left. split; auto. rewrite !Nat.min_l by lia. vm_compute. lia.
    + right. split; auto. rewrite !Nat.min_l by lia. vm_compute. lia.
Qed.

(** ** Private keys *)
Lemma encode_private_key_spec : forall k oid d pub buf, curve k oid -> k <= length d ->
  match pub with Some (x, y) => k <= length x /\ k <= length y | None => True end ->
  let e := private_key_der oid (firstn k d) (match pub with Some (x, y) => Some (firstn k x, firstn k y) | None => None end) in
  encode_private_key d pub k buf = if length buf <? length e then Err else Ret (e ++ skipn (length e) buf, length e).
Proof.
  intros k oid d pub buf C Ld P e.
  assert (K: 0 < k <= 66) by (destruct C as [(-> & _)|[(-> & _)|(-> & _)]]; lia).
  assert (Lo: 0 < length oid < 20) by (destruct C as [(_ & ->)|[(_ & ->)|(_ & ->)]]; cbn; lia).
  set (n := match pub with Some _ => if 32 <? k then 128 else 0 | None => 0 end).
  set (tail := match pub with Some (x, y) => tlv 0xa1 (tlv 3 (0 :: 4 :: firstn k x ++ firstn k y)%N) | None => [] end).
  pose (last := match pub with
                | Some (x, y) => seq (add_tag 0xa1 (k * 2 + (if negb (k =? 66) then 4 else 5)) None) (add_bit_string x y k)
                | None => fun buf pos len => Ret (buf, pos, len)
                end).
  pose (op := seq (add_tag 0x30 n None) (seq (add_tag 0x02 1 (Some [1%N])) (seq (add_tag 0x04 k (Some d))
    (seq (seq (add_tag 0xa0 (length oid + 2) None) (add_tag 0x06 (length oid) (Some oid))) last)))).
  assert (E: encode_private_key d pub k buf = bind (op buf 0 (length buf)) (fun '(buf, pos, len) => patch (if n =? 0 then 2 else 3) buf pos len)).
  { unfold encode_private_key, op, seq, n, last, seq, patch. unfold curve in C. rewrite curve_256, curve_384, curve_521 in C.
    destruct C as [(-> & ->)|[(-> & ->)|(-> & ->)]]; destruct pub as [(x, y)|]; cbn [Nat.eqb Nat.ltb Nat.leb bind negb];
      (destruct (add_tag _ _ _ buf _ _) as [[[b1 p1] l1]| |]; cbn [bind]; auto; destruct (add_tag _ _ _ b1 _ _) as [[[b2 p2] l2]| |]; cbn [bind]; auto;
       destruct (add_tag _ _ _ b2 _ _) as [[[b3 p3] l3]| |]; cbn [bind]; auto; destruct (add_tag _ _ _ b3 _ _) as [[[b4 p4] l4]| |]; cbn [bind]; auto;
       destruct (add_tag _ _ _ b4 _ _) as [[[b5 p5] l5]| |]; cbn [bind]; auto). }
  rewrite E. unfold e, private_key_der.
  replace (match match pub with Some (x, y) => Some (firstn k x, firstn k y) | None => None end with
           | Some (x, y) => tlv 0xa1 (tlv 3 (0 :: 4 :: x ++ y)%N) | None => [] end) with tail by (unfold tail; destruct pub as [(x, y)|]; reflexivity).
  assert (Lt: length tail = match pub with Some _ => if k =? 66 then 2 * k + 8 else 2 * k + 6 | None => 0 end).
  { unfold tail. destruct pub as [(x, y)|]; auto. destruct P as (Lx & Ly). rewrite !length_tlv. cbn [length]. rewrite app_length, !firstn_length, !Nat.min_l by lia.
    destruct C as [(-> & ->)|[(-> & ->)|(-> & ->)]]; reflexivity. }
  apply patch_spec.
  - unfold op. apply appends_hdr; [|unfold n; destruct pub; [destruct (32 <? k)|]; lia|].
    + apply appends_seq; [apply (appends_tlv 2 [1%N]); cbn; lia|]. apply appends_seq; [apply appends_tlv_firstn; lia|].
      apply appends_seq.
      * rewrite tlv_hdr. replace (length (tlv 6 oid)) with (length oid + 2) by (rewrite length_tlv; replace (_ <? 128) with true by lia; lia).
        apply appends_hdr; [apply appends_tlv; lia|lia|rewrite length_tlv; destruct (_ <? 128); lia].
      * unfold last, tail. destruct pub as [(x, y)|].
        -- destruct P as (Lx & Ly). rewrite (tlv_hdr 0xa1).
           replace (length (tlv 3 (0 :: 4 :: firstn k x ++ firstn k y)%N)) with (k * 2 + (if negb (k =? 66) then 4 else 5)).
           2: { rewrite length_tlv. cbn [length]. rewrite app_length, !firstn_length, !Nat.min_l by lia.
                destruct C as [(-> & ->)|[(-> & ->)|(-> & ->)]]; reflexivity. }
           apply appends_hdr; [apply appends_bit_string; auto; lia|destruct (negb _); lia|rewrite length_tlv; destruct (_ <? 128); lia].
        -- intros w r. cbn [length skipn Nat.ltb Nat.leb]. rewrite app_nil_r, Nat.sub_0_r. reflexivity.
    + rewrite app_length, length_tlv. cbn; lia.
  - rewrite !app_length, Lt, !length_tlv, firstn_length, Nat.min_l by lia. cbn [length]. unfold n.
    destruct C as [(-> & ->)|[(-> & ->)|(-> & ->)]]; destruct pub; [left|left|right|left|right|left]; split; auto; vm_compute; lia.
Qed.
