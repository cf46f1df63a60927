(** Proofs about recovery images: headers and the loop over the sections. *)
From Coq Require Import List NArith ZArith Lia Bool Arith ZifyBool ZifyNat ZifyN.
From Verif Require Import Base Flash_Base FlashUtil_Model FlashUtil_Proofs FlashUtil_Total_Proofs Manifest_Proofs Manifest_Verify_Proofs
  Manifest_Total_Proofs KeyWrap_Proofs Auth_Proofs FlashStore_Read_Proofs RecoveryImage_Model RecoveryImage_Spec.
Import ListNotations.
Local Open Scope N_scope.

Lemma le16_of : forall l o, (o + 2 <= length l)%nat -> bytes_ok l -> le16 (u16 l o) = window o 2 l.
Proof. exact le16_u16. Qed.
Lemma le32_of : forall l o, (o + 4 <= length l)%nat -> bytes_ok l -> le32 (u32 l o) = window o 4 l.
Proof. exact le32_u32. Qed.
Lemma of_le16 : forall v x y, v < 65536 -> u16 (x ++ le16 v ++ y) (length x) = v.
Proof. exact u16_le16. Qed.
Lemma of_le32 : forall v x y, v < 2 ^ 32 -> u32 (x ++ le32 v ++ y) (length x) = v.
Proof. exact u32_le32. Qed.
Lemma u16_lt : forall l o, bytes_ok l -> u16 l o < 65536.
Proof. exact u16_small. Qed.
Lemma u32_lt : forall l o, bytes_ok l -> u32 l o < 2 ^ 32.
Proof. exact u32_small. Qed.

Lemma bytes_img_read : forall m a n, bytes_img m -> bytes_ok (img_read m a n).
Proof.
  intros m a n B. unfold bytes_ok, img_read. apply Forall_forall. intros b H. apply in_map_iff in H. destruct H as (i & <- & _). apply B.
Qed.

Lemma w32_id : forall x, x < 2 ^ 32 -> w32 x = x.
Proof. intros. unfold w32. now apply N.mod_small. Qed.
Lemma sub32_id : forall a b, b <= a -> a < 2 ^ 32 -> sub32 a b = a - b.
Proof.
  intros a b L H. unfold sub32. rewrite (N.mod_small b) by lia. replace (a + 2 ^ 32 - b) with ((a - b) + 1 * 2 ^ 32) by lia.
  rewrite N.mod_add by lia. apply N.mod_small. lia.
Qed.
Lemma s32_id : forall z, (- 2 ^ 31 <= z < 2 ^ 31)%Z -> s32 z = z.
Proof. intros z H. unfold s32. rewrite Z.mod_small by lia. lia. Qed.

Lemma len_app : forall a b, len (a ++ b) = len a + len b.
Proof. intros. unfold len. rewrite app_length. lia. Qed.

Section P.
Variable m : image.
Variable size : N.
Variable rbad : N -> bool.
Variable nomem : N -> bool.
Hypothesis B : bytes_img m.

Lemma flash_read_ok : forall a n l, flash_read m size rbad a n = Ok l -> a + n <= size /\ l = img_read m a (N.to_nat n).
Proof.
  intros a n l H. unfold flash_read in H. destruct (N.ltb_spec size (a + n)); [discriminate|].
  destruct (rbad a); cbn [orb] in H; [discriminate|]. injection H as <-. auto.
Qed.

(** The bytes of a header that was loaded. *)
Lemma load_header_ok : forall a mk ok h, a + 8 < 2 ^ 32 -> mk < 2 ^ 32 -> load_header m size rbad nomem a mk ok = Ok h ->
  8 <= h_length h <= 1024 /\ h_format h < 65536 /\ ok (h_format h) (h_length h - 8) = true /\ a + h_length h <= size /\
  len (h_data h) = h_length h - 8 /\ bytes_ok (h_data h) /\
  img_read m a (N.to_nat (h_length h)) = le16 (h_length h) ++ le16 (h_format h) ++ le32 mk ++ h_data h.
Proof.
  intros a mk ok h Ha Hm H. unfold load_header, bind, INFO_LEN, MAX_HEADER in H.
  destruct (flash_read m size rbad a 8) as [i|e|] eqn:R; try discriminate. apply flash_read_ok in R. destruct R as (R1 & R2).
  assert (Li: length i = 8%nat) by (subst i; now rewrite length_img_read).
  assert (Bi: bytes_ok i) by (subst i; now apply bytes_img_read).
  destruct (N.ltb_spec (u16 i 0) 8); [discriminate|].
  destruct (N.eqb_spec (u32 i 4) mk) as [K|K]; [|discriminate]. cbn [negb] in H.
  destruct (N.ltb_spec 1024 (u16 i 0)); [discriminate|].
  destruct (ok (u16 i 2) (u16 i 0 - 8)) eqn:O; [|discriminate]. cbn [negb] in H.
  destruct (nomem _); [discriminate|]. rewrite w32_id in H by lia.
  destruct (flash_read m size rbad (a + 8) (u16 i 0 - 8)) as [d|e|] eqn:R; try discriminate. apply flash_read_ok in R.
  destruct R as (R3 & R4). injection H as <-. cbn [h_length h_format h_data].
  assert (Ld: len d = u16 i 0 - 8) by (subst d; unfold len; rewrite length_img_read; lia).
  split; [lia|]. split; [now apply u16_lt|]. split; [auto|]. split; [lia|]. split; [auto|].
  split; [subst d; now apply bytes_img_read|].
  replace (N.to_nat (u16 i 0)) with (8 + N.to_nat (u16 i 0 - 8))%nat by lia. rewrite img_read_app.
  change (N.of_nat 8) with 8. rewrite <- R4. rewrite <- K. rewrite !le16_of, le32_of by (auto; lia).
  change (N.to_nat 8) with 8%nat in R2. rewrite <- R2. rewrite !app_assoc. f_equal. clear - Li.
  do 8 (destruct i as [|? i]; [discriminate Li|]). destruct i; [reflexivity|discriminate Li].
Qed.

Lemma section_init_ok : forall a h, a + 8 < 2 ^ 32 -> section_init m size rbad nomem a = Ok h ->
  exists more, (h_format h = 0 -> more = []) /\ h_format h < 65536 /\ len more <= 1008 /\ h_length h = 16 + len more /\
    host_addr h < 2 ^ 32 /\ section_length h < 2 ^ 32 /\ a + h_length h <= size /\
    img_read m a (N.to_nat (h_length h)) = section_header (h_format h) (host_addr h) (section_length h) more.
Proof.
  intros a h Ha H. unfold section_init in H. apply load_header_ok in H; [|auto|reflexivity].
  destruct H as (L & F & O & SZ & D & Bd & I).
  assert (D8: (8 <= length (h_data h))%nat).
  { unfold len in D. destruct (h_format h =? 0); lia. }
  exists (skipn 8 (h_data h)).
  assert (LM: len (skipn 8 (h_data h)) = h_length h - 16) by (unfold len in *; rewrite skipn_length; lia).
  split.
  - intros Z. rewrite Z in O. cbn [N.eqb] in O. apply N.eqb_eq in O. apply length_zero_iff_nil. unfold len in LM. lia.
  - split; [auto|]. split; [lia|]. split; [unfold len in *; lia|]. split; [now apply u32_lt|]. split; [now apply u32_lt|].
    split; [auto|]. rewrite I. unfold section_header. replace (16 + len (skipn 8 (h_data h))) with (h_length h) by (unfold len in *; lia).
    unfold SECTION_MARKER. do 3 f_equal. unfold host_addr, section_length. rewrite !le32_of by (auto; lia). clear - D8.
    destruct (h_data h) as [|? [|? [|? [|? [|? [|? [|? [|? ?]]]]]]]]; cbn in D8; try lia. reflexivity.
Qed.

Lemma len_section_header : forall f a n more, len (section_header f a n more) = 16 + len more.
Proof. clear. intros. unfold section_header, len. rewrite !app_length. cbn [length le16 le32]. lia. Qed.

(** A header somewhere in the sections that makes the arithmetic wrap. *)
Definition oversize_in (next rem : N) : Prop :=
  exists pre l n, len pre < rem /\ img_read m next (length pre) = pre /\ encodes pre l /\
    section_header_at m (next + len pre) n /\ 2 ^ 30 <= n.

Lemma check_sections_sound : forall fuel next rem low, next + rem <= 2 ^ 30 -> low < 2 ^ 32 ->
  check_sections m size rbad nomem fuel next (Z.of_N rem) low = Some (Ok tt) ->
  (exists l, encodes (img_read m next (N.to_nat rem)) l /\ (within (2 ^ 32 - 1) l -> ascending_from low l)) \/
  oversize_in next rem.
Proof.
  induction fuel as [|f IH]; intros next rem low Hn Hl H; [discriminate|]. cbn [check_sections] in H.
  destruct (Z.leb_spec (Z.of_N rem) 0) as [R|R].
  { assert (rem = 0) by lia. subst rem. left. exists []. split; [constructor|]. intros _. exact I. }
  destruct (section_init m size rbad nomem next) as [h|e|] eqn:S; try discriminate.
  apply section_init_ok in S; [|lia]. destruct S as (more & S1 & S2 & S3 & S4 & S5 & S6 & S7 & S8).
  destruct (N.ltb_spec (host_addr h) low) as [?|A]; [discriminate|].
  destruct (N.le_gt_cases (2 ^ 30) (section_length h)) as [V|V].
  - right. exists [], [], (section_length h). split; [cbn; lia|]. split; [reflexivity|]. split; [constructor|].
    split; [|exact V]. exists (16 + len more), (h_format h), (host_addr h). split; [|exact S6].
    cbn [len length N.of_nat]. rewrite N.add_0_r. unfold section_header in S8. rewrite !app_assoc in S8.
    rewrite S4 in S8. unfold len in S8. apply img_read_split in S8; [|rewrite !app_length; cbn [length le16 le32]; lia].
    destruct S8 as (S8 & _). rewrite <- !app_assoc in S8. exact S8.
  - assert (W: w32 (h_length h + section_length h) = h_length h + section_length h) by (apply w32_id; lia).
    rewrite W in H. rewrite s32_id in H by lia.
    destruct (N.lt_ge_cases rem (h_length h + section_length h)) as [T|T].
    { exfalso. destruct f as [|f']; [discriminate H|]. cbn [check_sections] in H.
      destruct (Z.leb_spec (Z.of_N rem - Z.of_N (h_length h + section_length h)) 0); [|lia].
      destruct (Z.ltb_spec (Z.of_N rem - Z.of_N (h_length h + section_length h)) 0); [discriminate H|lia]. }
    rewrite w32_id in H by lia.
    replace (Z.of_N rem - Z.of_N (h_length h + section_length h))%Z with (Z.of_N (rem - (h_length h + section_length h))) in H by lia.
    apply IH in H; [|lia|unfold w32; apply N.mod_lt; lia].
    set (hl := h_length h) in *. set (n := section_length h) in *.
    set (data := img_read m (next + hl) (N.to_nat n)).
    assert (Ld: len data = n) by (unfold len, data; rewrite length_img_read; lia).
    assert (Pre: img_read m next (N.to_nat (hl + n)) = section_header (h_format h) (host_addr h) (len data) more ++ data).
    { replace (N.to_nat (hl + n)) with (N.to_nat hl + N.to_nat n)%nat by lia. rewrite img_read_app, S8, Ld. f_equal.
      unfold data. f_equal. lia. }
    destruct H as [(l & E & As)|(pre & l & k & P1 & P2 & P3 & P4 & P5)].
    + left. exists (Section_ (host_addr h) data :: l). split.
      * replace (N.to_nat rem) with (N.to_nat (hl + n) + N.to_nat (rem - (hl + n)))%nat by lia.
        rewrite img_read_app, Pre, <- app_assoc. replace (next + N.of_nat (N.to_nat (hl + n))) with (next + (hl + n)) by lia.
        constructor; auto; lia.
      * intros Wn. inversion Wn as [|? ? W1 W2]; subst. cbn [s_addr s_data] in W1. rewrite Ld in W1.
        cbn [ascending_from s_addr s_data]. split; [exact A|]. rewrite Ld. specialize (As W2). rewrite w32_id in As by lia. exact As.
    + right. exists ((section_header (h_format h) (host_addr h) (len data) more ++ data) ++ pre), (Section_ (host_addr h) data :: l), k.
      assert (LP: len (section_header (h_format h) (host_addr h) (len data) more ++ data) = hl + n).
      { rewrite len_app, len_section_header. lia. }
      split; [rewrite len_app; lia|]. split.
      * set (sec := section_header (h_format h) (host_addr h) (len data) more ++ data) in *.
        rewrite app_length, img_read_app. replace (length sec) with (N.to_nat (hl + n)) by (unfold len in LP; lia).
        rewrite Pre. f_equal. rewrite <- P2 at 2. f_equal. lia.
      * split; [rewrite <- app_assoc; constructor; auto; lia|]. split; [|exact P5].
        rewrite len_app, LP. rewrite N.add_assoc. exact P4.
Qed.

Lemma strnlen_spec : forall n l k, strnlen l n = Some k ->
  (k <= n)%nat /\ Forall (fun b => b <> 0) (firstn k l) /\ (k <= length l)%nat /\ ((k < n)%nat -> nth_error l k = Some 0).
Proof. clear.
  induction n as [|n IH]; intros l k H; cbn [strnlen] in H.
  - injection H as <-. repeat split; auto; try lia. constructor.
  - destruct l as [|b t]; [discriminate|]. destruct (N.eqb_spec b 0) as [->|Nb].
    + injection H as <-. repeat split; auto; try lia. constructor.
    + destruct (strnlen t n) as [j|] eqn:E; [|discriminate]. injection H as <-. apply IH in E.
      destruct E as (E1 & E2 & E3 & E4). repeat split; cbn [length firstn nth_error]; try lia; [now constructor|].
      intros ?. apply E4. lia.
Qed.

Lemma forall_text : forall l, bytes_ok l -> Forall (fun b => b <> 0) l -> text l.
Proof. clear.
  intros l Bl H. unfold text, bytes_ok in *. rewrite Forall_forall in *. intros b Hb. split; [now apply H|]. apply Bl, Hb.
Qed.

Lemma split_nth : forall (l : list N) k x, nth_error l k = Some x -> l = firstn k l ++ x :: skipn (S k) l.
Proof. clear.
  intros l k. revert l. induction k as [|k IH]; intros [|y t] x H; try discriminate; cbn [nth_error firstn skipn app] in *.
  - now injection H as <-.
  - f_equal. now apply IH.
Qed.

Lemma str_equal_true : forall a b, str_equal a b = Some true -> exists more, b = a ++ 0 :: more.
Proof. clear.
  induction a as [|x a IH]; intros [|y b] H; try discriminate; cbn [str_equal] in H.
  - injection H as H. apply N.eqb_eq in H. subst y. now exists b.
  - destruct (N.eqb_spec x y) as [->|]; [|discriminate]. apply IH in H. destruct H as (more & ->). now exists more.
Qed.

Lemma str_equal_same : forall a more, str_equal a (a ++ 0 :: more) = Some true.
Proof. clear. induction a as [|x a IH]; intros; cbn [str_equal app]; [reflexivity|]. rewrite N.eqb_refl. apply IH. Qed.

Lemma cut : forall k n (d : list N), skipn n d = firstn k (skipn n d) ++ skipn (n + k) d.
Proof.
  clear. intros k n d. rewrite <- (firstn_skipn k (skipn n d)) at 1. f_equal. now rewrite skipn_skipn.
Qed.

Lemma skipn_nth : forall (d : list N) n, (n < length d)%nat -> skipn n d = nth n d 0 :: skipn (S n) d.
Proof.
  clear. intros d n. revert d. induction n as [|n IH]; intros [|x d] H; cbn [length] in H; try lia; cbn [skipn nth]; [reflexivity|].
  apply IH. lia.
Qed.

(** The bytes of the header of an image. *)
Lemma header_init_ok : forall a h, a + 8 < 2 ^ 32 -> header_init m size rbad nomem a = Ok h ->
  exists version id_len rest, good_header (h_format h) version id_len rest /\ h_length h = 49 + len rest /\
    version_id h = version /\ platform_bytes h = rest /\
    image_length h < 2 ^ 32 /\ signature_length h < 2 ^ 32 /\ a + h_length h <= size /\
    (h_format h = 0 -> signature_length h <= sub32 (image_length h) (h_length h)) /\
    img_read m a (N.to_nat (h_length h)) =
      image_header (h_format h) version (image_length h) (signature_length h) id_len rest.
Proof.
  intros a h Ha H. unfold header_init, bind in H.
  destruct (load_header m size rbad nomem a IMAGE_MARKER (fun _ _ => true)) as [h0|e|] eqn:L; try discriminate.
  apply load_header_ok in L; [|auto|reflexivity]. destruct L as (L & F & _ & SZ & D & Bd & I).
  assert (G: h = h0 /\ (41 <= length (h_data h0))%nat /\
     (h_format h0 = 0 ->
       (exists name pad, firstn 32 (h_data h0) = name ++ 0 :: pad /\ text name /\ name <> []) /\
       (exists platform, skipn 41 (h_data h0) = platform ++ [0] /\ text platform) /\
       nth 40 (h_data h0) 0 = len (skipn 41 (h_data h0)) /\
       signature_length h0 <= sub32 (image_length h0) (h_length h0))).
  { destruct (N.eqb_spec (h_format h0) 0) as [Z|Z].
    - destruct (strnlen (h_data h0) VERSION_LEN) as [vl|] eqn:V; [|discriminate].
      destruct (nth_error (h_data h0) 40) as [il|] eqn:Q; [|discriminate].
      assert (L40: (40 < length (h_data h0))%nat) by (apply nth_error_Some; congruence).
      destruct (N.eqb_spec (sub32 (N.of_nat (length (h_data h0))) il) (N.of_nat FORMAT0_LEN)) as [E|]; [|discriminate].
      cbn [negb] in H. unfold FORMAT0_LEN in *.
      assert (il < 256). { unfold bytes_ok in Bd. rewrite Forall_forall in Bd. apply Bd. now apply nth_error_In in Q. }
      destruct (strnlen (skipn 41 (h_data h0)) (N.to_nat il)) as [k|] eqn:K; [|discriminate].
      destruct (N.eqb_spec (N.of_nat k + 1) il) as [E2|]; [|discriminate]. cbn [negb] in H.
      destruct (N.ltb_spec (sub32 (image_length h0) (h_length h0)) (signature_length h0)) as [|SG]; [discriminate|].
      destruct (Nat.eqb_spec vl VERSION_LEN) as [|V1]; [discriminate|]. destruct (Nat.eqb_spec vl 0) as [|V2]; [discriminate|].
      cbn [orb] in H. injection H as <-. split; [auto|]. split; [lia|]. intros _.
      apply strnlen_spec in V. destruct V as (Va & Vb & Vc & Vd). unfold VERSION_LEN in *.
      apply strnlen_spec in K. destruct K as (Ka & Kb & Kc & Kd).
      assert (LS: length (skipn 41 (h_data h0)) = N.to_nat il).
      { rewrite skipn_length. assert (LL: length (h_data h0) = (41 + N.to_nat il)%nat).
        { destruct (N.le_gt_cases il (N.of_nat (length (h_data h0)))) as [C|C].
          - rewrite sub32_id in E by (unfold len in D; lia). lia.
          - exfalso. unfold sub32 in E. rewrite (N.mod_small il) in E by lia. rewrite N.mod_small in E by lia. lia. }
        lia. }
      split; [|split; [|split; [|exact SG]]].
      + exists (firstn vl (h_data h0)), (firstn (31 - vl) (skipn (S vl) (h_data h0))). split; [|split].
        * assert (NE: nth_error (h_data h0) vl = Some 0) by (apply Vd; lia). apply split_nth in NE. rewrite NE at 1.
          rewrite firstn_app. rewrite firstn_length. replace (Nat.min vl (length (h_data h0))) with vl by lia.
          rewrite firstn_all2 by (rewrite firstn_length; lia). f_equal.
          replace (32 - vl)%nat with (S (31 - vl)) by lia. reflexivity.
        * apply forall_text; [|auto]. now apply bytes_ok_firstn.
        * intros C. apply (f_equal (@length N)) in C. rewrite firstn_length in C. cbn [length] in C. lia.
      + exists (firstn k (skipn 41 (h_data h0))). split; [|apply forall_text; [apply bytes_ok_firstn; now apply bytes_ok_skipn|auto]].
        assert (NE: nth_error (skipn 41 (h_data h0)) k = Some 0) by (apply Kd; lia). apply split_nth in NE. rewrite NE at 1.
        f_equal. f_equal. apply length_zero_iff_nil. rewrite skipn_length. lia.
      + rewrite (nth_error_nth _ _ 0 Q). unfold len. lia.
    - destruct (Nat.ltb_spec (length (h_data h0)) FORMAT0_LEN); [discriminate|]. injection H as <-.
      unfold FORMAT0_LEN in *. split; [auto|]. split; [lia|]. intros C. contradiction. }
  destruct G as (-> & G1 & G2). set (d := h_data h0) in *.
  exists (firstn 32 d), (nth 40 d 0), (skipn 41 d).
  assert (LR: len (skipn 41 d) = h_length h0 - 49) by (unfold len in *; rewrite skipn_length; lia).
  split; [|split; [|split; [|split; [|split; [|split; [|split; [|split]]]]]]]; auto.
  - split; [rewrite firstn_length; lia|]. split; [now apply bytes_ok_firstn|]. split; [now apply bytes_ok_skipn|].
    split; [auto|]. split.
    { unfold bytes_ok in Bd. rewrite Forall_forall in Bd. apply Bd. apply nth_In. lia. }
    split; [unfold len in *; lia|]. intros Z. destruct (G2 Z) as (? & ? & ? & ?). auto.
  - unfold len in *. lia.
  - now apply u32_lt.
  - now apply u32_lt.
  - intros Z. destruct (G2 Z) as (? & ? & ? & ?). auto.
  - rewrite I. unfold image_header, IMAGE_MARKER. replace (49 + len (skipn 41 d)) with (h_length h0) by (unfold len in *; lia).
    do 3 f_equal. unfold image_length, signature_length. fold d. rewrite !le32_of by (auto; lia). unfold window.
    clear - G1. clearbody d.
    transitivity (firstn 32 d ++ skipn 32 d); [now rewrite firstn_skipn|]. f_equal. etransitivity; [apply (cut 4 32)|]. f_equal.
    change (32 + 4)%nat with 36%nat. etransitivity; [apply (cut 4 36)|]. f_equal. change (36 + 4)%nat with 40%nat.
    etransitivity; [apply (cut 1 40)|]. change (40 + 1)%nat with 41%nat. f_equal.
    rewrite (skipn_nth d 40) by lia. reflexivity.
Qed.
End P.
