(** Signatures. *)
From Coq Require Import List NArith Lia Bool Arith ZifyBool ZifyNat ZifyN.
From Verif Require Import Base Der_Model Der_Spec Der_Proofs.
Import ListNotations.

Lemma testbit7 : forall x, byte_ok x -> N.testbit x 7 = (128 <=? x)%N.
Proof.
  unfold byte_ok. intros x H. rewrite N.testbit_eqb. change (2 ^ 7)%N with 128%N.
  destruct (128 <=? x)%N eqn:E.
  - replace (x / 128)%N with 1%N; [reflexivity|]. apply (N.div_unique x 128 1 (x - 128)); lia.
  - rewrite N.div_small by lia. reflexivity.
Qed.

(** ** Leading zeros *)
Lemma trim_spec : forall l, bytes_ok l -> l <> [] ->
  bytes_ok (trim l) /\ be_value (trim l) = be_value l /\ 1 <= length (trim l) <= length l /\
  (nth 0 (trim l) 0%N = 0%N -> length (trim l) = 1).
Proof.
  induction l as [|x t IH]; intros B NE; [congruence|]. cbn [trim]. destruct t as [|y t].
  { repeat split; auto; cbn; lia. }
  destruct (x =? 0)%N eqn:E.
  - inversion_clear B as [|? ? Bx Bt]. destruct (IH Bt ltac:(discriminate)) as (B & V & L & Z).
    split; auto. split; [|cbn [length] in *; split; auto; lia].
    rewrite V. apply N.eqb_eq in E. subst x. now rewrite (be_value_cons 0 (y :: t)), N.mul_0_l.
  - split; auto. split; auto. cbn [length nth]. split; [lia|]. intros; lia.
Qed.

Definition sig_content (v : list N) : list N := if N.testbit (nth 0 (trim v) 0%N) 7 then 0%N :: trim v else trim v.

Lemma sig_content_der : forall v, bytes_ok v -> v <> [] -> der_integer (be_value v) (sig_content v).
Proof.
  intros v B NE. destruct (trim_spec v B NE) as (B' & V & L & Z). unfold sig_content.
  destruct (trim v) as [|b t] eqn:T; [cbn in L; lia|]. cbn [nth] in *. inversion B' as [|? ? Bb Bt]; subst.
  rewrite testbit7 by auto. destruct (128 <=? b)%N eqn:E.
  - split; [constructor; auto; unfold byte_ok; lia|]. split; [now rewrite be_value_cons, N.mul_0_l|].
    exists 0%N, (b :: t). split; auto. split; lia.
  - split; auto. split; auto. exists b, t. split; auto. split; [lia|]. intros ->. destruct t; auto.
    specialize (Z eq_refl). cbn in Z. lia.
Qed.

Lemma sig_content_length : forall v, bytes_ok v -> v <> [] -> 1 <= length (sig_content v) <= S (length v).
Proof.
  intros v B NE. destruct (trim_spec v B NE) as (_ & _ & L & _). unfold sig_content. destruct (N.testbit _ _); cbn [length]; lia.
Qed.

Lemma encode_sig_integer_spec : forall sig k w r, 0 < k <= 124 -> k <= length sig -> bytes_ok sig ->
  let c := sig_content (firstn k sig) in
  encode_sig_integer sig k (w ++ r) (length w) (length r)
  = if length r <? length (tlv 2 c) then Err
    else Ret ((w ++ tlv 2 c) ++ skipn (length (tlv 2 c)) r, length (w ++ tlv 2 c), length r - length (tlv 2 c)).
Proof.
  intros sig k w r K L B c.
  assert (Bv: bytes_ok (firstn k sig)) by now apply Forall_firstn.
  assert (Lv: length (firstn k sig) = k) by (rewrite firstn_length; lia).
  assert (NE: firstn k sig <> []) by (intros Z; rewrite Z in Lv; cbn in Lv; lia).
  pose proof (sig_content_length _ Bv NE) as Lc. fold c in Lc. rewrite Lv in Lc.
  destruct (trim_spec _ Bv NE) as (_ & _ & Lt & _). rewrite Lv in Lt.
  rewrite length_tlv. replace (length c <? 128) with true by lia.
  unfold encode_sig_integer. rewrite add_tag_none by lia.
  destruct (length r <? 3) eqn:E. { replace (length r <? _) with true by lia. reflexivity. }
  cbn [bind]. rewrite rds_ok by lia. cbn [bind]. rewrite (rd_ok _ 0 0%N) by lia. cbn [bind].
  change (hdr 2 0) with [2; 0]%N. cbn [length].
  unfold c, sig_content in *. set (v := trim (firstn k sig)) in *. clearbody v. clear c NE Bv Lv B L.
  unfold tlv. rewrite !app_length. cbn [length].
  destruct (N.testbit (nth 0 v 0%N) 7) eqn:T; cbn [length] in *.
  - rewrite wr_end' by (rewrite ?app_length, ?skipn_length; cbn [length]; lia). cbn [bind]. rewrite sub_ok by lia. cbn [bind].
    replace (rd _ (S (length w))) with (Ret 0%N).
    2: { unfold rd. rewrite <- !app_assoc. rewrite nth_error_app2 by lia. replace (S (length w) - length w) with 1 by lia. reflexivity. }
    cbn [bind]. change ((0 + 1) mod 256)%N with 1%N.
    replace (((w ++ [2%N; 0%N]) ++ [0%N]) ++ skipn (length [0%N]) (skipn 2 r)) with ((w ++ [2%N]) ++ [0%N] ++ ([0%N] ++ skipn 3 r))
      by (rewrite <- !app_assoc, skipn_skipn; reflexivity).
    replace (S (length w)) with (length (w ++ [2%N])) by (rewrite app_length; cbn; lia).
    rewrite wr_mid by reflexivity. cbn [bind].
    replace (length (w ++ [2%N])) with (S (length w)) by (rewrite app_length; cbn; lia).
    destruct (length r - 2 - 1 <? length v) eqn:F. { replace (length r <? _) with true by lia. reflexivity. }
    replace (length r <? _) with false by lia.
    replace ((w ++ [2%N]) ++ [1%N] ++ [0%N] ++ skipn 3 r) with ((w ++ [2; 1; 0]%N) ++ skipn 3 r) by (rewrite <- !app_assoc; reflexivity).
    rewrite wr_end' by (rewrite ?app_length, ?skipn_length; cbn [length]; lia). cbn [bind]. rewrite sub_ok by lia. cbn [bind].
    replace (rd _ (S (length w))) with (Ret 1%N).
    2: { unfold rd. rewrite <- !app_assoc. rewrite nth_error_app2 by lia. replace (S (length w) - length w) with 1 by lia. reflexivity. }
    cbn [bind].
    replace (((w ++ [2; 1; 0]%N) ++ v) ++ skipn (length v) (skipn 3 r)) with ((w ++ [2%N]) ++ [1%N] ++ ([0%N] ++ v ++ skipn (length v) (skipn 3 r)))
      by (rewrite <- !app_assoc; reflexivity).
    replace (S (length w)) with (length (w ++ [2%N])) by (rewrite app_length; cbn; lia).
    rewrite wr_mid by reflexivity. cbn [bind]. rewrite !skipn_skipn, !app_length.
    unfold len_octets. replace (S (length v) <? 128) with true by lia.
    replace ((1 + N.of_nat (length v)) mod 256)%N with (N.of_nat (S (length v))) by (rewrite N.mod_small; lia).
    cbn [length]. rewrite <- !app_assoc. cbn [app]. repeat (f_equal; try lia).
  - cbn [bind].
    destruct (length r - 2 <? length v) eqn:F. { replace (length r <? _) with true by lia. reflexivity. }
    replace (length r <? _) with false by lia.
    rewrite wr_end' by (rewrite ?app_length, ?skipn_length; cbn [length]; lia). cbn [bind]. rewrite sub_ok by lia. cbn [bind].
    replace (rd _ (S (length w))) with (Ret 0%N).
    2: { unfold rd. rewrite <- !app_assoc. rewrite nth_error_app2 by lia. replace (S (length w) - length w) with 1 by lia. reflexivity. }
    cbn [bind].
    replace (((w ++ [2; 0]%N) ++ v) ++ skipn (length v) (skipn 2 r)) with ((w ++ [2%N]) ++ [0%N] ++ (v ++ skipn (length v) (skipn 2 r)))
      by (rewrite <- !app_assoc; reflexivity).
    replace (S (length w)) with (length (w ++ [2%N])) by (rewrite app_length; cbn; lia).
    rewrite wr_mid by reflexivity. cbn [bind]. rewrite !skipn_skipn, !app_length.
    unfold len_octets. replace (length v <? 128) with true by lia.
    replace ((0 + N.of_nat (length v)) mod 256)%N with (N.of_nat (length v)) by (rewrite N.mod_small; lia).
    cbn [length]. rewrite <- !app_assoc. cbn [app]. repeat (f_equal; try lia).
Qed.

Lemma encode_signature_spec : forall r s k buf, 0 < k <= 124 -> k <= length r -> k <= length s -> bytes_ok r -> bytes_ok s ->
  let e := tlv 0x30 (tlv 2 (sig_content (firstn k r)) ++ tlv 2 (sig_content (firstn k s))) in
  encode_signature r s k buf = if length buf <? length e then Err else Ret (e ++ skipn (length e) buf, length e).
Proof.
  intros r s k buf K Lr Ls Br Bs e. unfold encode_signature. replace (k =? 0) with false by lia.
  pose proof (add_tag_none 0x30 0 [] buf ltac:(lia)) as A. cbn [app length] in A. rewrite A. clear A.
  assert (Lc: forall v, bytes_ok v -> k <= length v -> 3 <= length (tlv 2 (sig_content (firstn k v))) <= k + 3).
  { intros v B L. assert (Lv: length (firstn k v) = k) by (rewrite firstn_length; lia).
    pose proof (sig_content_length (firstn k v) ltac:(now apply Forall_firstn) ltac:(intros Z; rewrite Z in Lv; cbn in Lv; lia)) as X.
    rewrite length_tlv. replace (_ <? 128) with true by lia. lia. }
  pose proof (Lc _ Br Lr) as L1. pose proof (Lc _ Bs Ls) as L2. clear Lc.
  change (hdr 0x30 0) with [0x30; 0]%N. cbn [length].
  pose proof (encode_sig_integer_spec r k) as E1. pose proof (encode_sig_integer_spec s k) as E2. cbn zeta in E1, E2.
  unfold e. set (a := tlv 2 (sig_content (firstn k r))) in *. set (b := tlv 2 (sig_content (firstn k s))) in *.
  rewrite length_tlv, app_length.
  destruct (length buf <? 3) eqn:E. { replace (length buf <? _) with true by (destruct (_ <? 128); lia). reflexivity. }
  cbn [bind app length]. specialize (E1 [0x30; 0]%N (skipn 2 buf) K Lr Br). rewrite skipn_length in E1. cbn [app length] in E1. rewrite E1. clear E1.
  destruct (length buf - 2 <? length a) eqn:F. { replace (length buf <? _) with true by (destruct (_ <? 128); lia). reflexivity. }
  cbn [bind]. specialize (E2 (0x30 :: 0 :: a)%N (skipn (length a) (skipn 2 buf)) K Ls Bs). rewrite !skipn_length in E2. cbn [app length] in E2 |- *.
  rewrite E2. clear E2.
  destruct (length buf - 2 - length a <? length b) eqn:G. { replace (length buf <? _) with true by (destruct (_ <? 128); lia). reflexivity. }
  cbn [bind length]. rewrite sub_ok by lia. cbn [bind].
  replace (S (S (length (a ++ b))) - 2) with (length a + length b) by (rewrite app_length; lia).
  rewrite !skipn_skipn. set (rest := skipn _ buf).
  change (48%N :: 0%N :: (a ++ b) ++ rest) with ([48%N] ++ [0%N] ++ ((a ++ b) ++ rest)). change 1 with (length [48%N]) at 1.
  rewrite wr_mid by reflexivity. cbn [bind].
  replace (N.of_nat (length a + length b) mod 256)%N with (N.of_nat (length a + length b)) by (rewrite N.mod_small; lia).
  destruct (128 <=? length a + length b) eqn:T.
  - replace (length a + length b <? 128) with false by lia.
    destruct (length buf - 2 - length a - length b =? 0) eqn:Z. { replace (length buf <? _) with true by lia. reflexivity. }
    replace (length buf <? _) with false by lia.
    rewrite (skip_app [48%N]) by reflexivity. cbn [bind].
    change ([N.of_nat (length a + length b)] ++ (a ++ b) ++ rest) with ((N.of_nat (length a + length b) :: a ++ b) ++ rest).
    rewrite rds_app by (cbn [length]; rewrite app_length; lia). cbn [bind].
    assert (Lrest: length rest <> 0) by (unfold rest; rewrite skipn_length; lia).
    change ([48%N] ++ (N.of_nat (length a + length b) :: a ++ b) ++ rest) with ([48; N.of_nat (length a + length b)]%N ++ ((a ++ b) ++ rest)).
    rewrite wr_end' by (cbn [length]; rewrite ?app_length; lia). cbn [bind].
    rewrite <- app_assoc. change ([48; N.of_nat (length a + length b)]%N) with ([48]%N ++ [N.of_nat (length a + length b)]).
    rewrite <- app_assoc. change 1 with (length [48%N]). rewrite wr_mid by reflexivity. cbn [bind].
    unfold tlv. rewrite app_length. unfold len_octets. replace (length a + length b <? 128) with false by lia.
    cbn [app length]. rewrite app_length.
    replace (skipn (S (length a + length b)) ((a ++ b) ++ rest)) with (skipn 1 rest).
    2: { rewrite (skipn_app _ (a ++ b)), (skipn_all2 (a ++ b)) by (rewrite app_length; lia). rewrite app_length. cbn [app]. f_equal. lia. }
    unfold rest. rewrite skipn_skipn. rewrite <- !app_assoc. repeat (f_equal; try lia).
  - replace (length a + length b <? 128) with true by lia. replace (length buf <? _) with false by lia.
    unfold tlv. rewrite app_length. unfold len_octets. replace (length a + length b <? 128) with true by lia.
    unfold rest. cbn [app length]. rewrite <- !app_assoc. repeat (f_equal; try lia).
Qed.

(** ** Decoding *)
Lemma be_value_zeros : forall n l, be_value (repeat 0%N n ++ l) = be_value l.
Proof.
  intros n l. rewrite be_value_app. replace (be_value (repeat 0%N n)) with 0%N; [lia|].
  induction n; [reflexivity|]. cbn [repeat]. rewrite be_value_cons. lia.
Qed.

Lemma wr_zeros : forall k c, length c <= k -> wr (repeat 0%N k) (k - length c) c = Ret (repeat 0%N (k - length c) ++ c).
Proof.
  intros k c L. replace k with ((k - length c) + length c) at 1 by lia. rewrite repeat_app.
  rewrite wr_end' by (rewrite !repeat_length; lia). rewrite skipn_all2 by (rewrite repeat_length; lia). now rewrite app_nil_r.
Qed.

(** What an integer of a signature is decoded to *)
Definition sig_value (k : nat) (c : list N) : list N :=
  if k <? length c then repeat 0%N (k - length (tl c)) ++ tl c else repeat 0%N (k - length c) ++ c.

Definition sig_fits (k : nat) (c : list N) : Prop := length c <= k \/ length c = S k /\ nth 0 c 0%N = 0%N.

Lemma sig_value_ok : forall k c, sig_fits k c -> length (sig_value k c) = k /\ be_value (sig_value k c) = be_value c.
Proof.
  intros k c F. unfold sig_value. destruct (k <? length c) eqn:E.
  - destruct F as [F|(F & Z)]; [lia|]. destruct c as [|x c]; [cbn in F; lia|]. cbn [tl nth length] in *. subst x.
    rewrite app_length, repeat_length, be_value_zeros, be_value_cons. split; lia.
  - rewrite app_length, repeat_length, be_value_zeros. split; lia.
Qed.

Lemma decode_sig_integer_run : forall h c rest len k, is_hdr 2 (length c) h -> 3 <= len -> length h + length c <= len ->
  len <= length (h ++ c ++ rest) ->
  (sig_fits k c -> decode_sig_integer (h ++ c ++ rest) len k = Ret (sig_value k c, rest, len - length h - length c)) /\
  (~ sig_fits k c -> decode_sig_integer (h ++ c ++ rest) len k = Err).
Proof.
  intros h c rest len k Hh L3 L1 L2. unfold decode_sig_integer.
  rewrite (next_tag_hdr 2 h (length c) (c ++ rest) len Hh L3 L1 L2). cbn [bind].
  destruct (k + 1 <? length c) eqn:A.
  { split; auto. intros [F|(F & _)]; lia. }
  unfold sig_value. destruct (k <? length c) eqn:B.
  - destruct c as [|x c]; [cbn in B; lia|]. cbn [app tl]. unfold rd. cbn [nth_error bind]. destruct (x =? 0)%N eqn:X; cbn [negb].
    + split; [intros _|intros N; exfalso; apply N; right; cbn [length nth] in *; lia].
      change (x :: c ++ rest) with ([x] ++ c ++ rest). rewrite skip_app by reflexivity. cbn [bind length].
      rewrite !sub_ok by (cbn [length] in *; lia). cbn [bind]. rewrite rds_app by lia. cbn [bind]. rewrite sub_ok by (cbn [length] in *; lia). cbn [bind].
      replace (k - (S (length c) - 1)) with (k - length c) by lia. rewrite wr_zeros by (cbn [length] in *; lia). cbn [bind].
      rewrite skip_app by lia. cbn [bind]. rewrite sub_ok by (cbn [length] in *; lia). cbn [bind]. repeat (f_equal; try lia).
    + split; auto. intros [F|(F & Z)]; cbn [length nth] in *; lia.
  - split; [intros _|intros N; exfalso; apply N; left; lia].
    cbn [bind]. rewrite rds_app by lia. cbn [bind]. rewrite sub_ok by lia. cbn [bind]. rewrite wr_zeros by lia. cbn [bind].
    rewrite skip_app by lia. cbn [bind]. rewrite sub_ok by lia. reflexivity.
Qed.

Lemma sig_fits_dec : forall k c, sig_fits k c \/ ~ sig_fits k c.
Proof. intros. unfold sig_fits. destruct (le_dec (length c) k); auto. destruct (Nat.eq_dec (length c) (S k)), (N.eq_dec (nth 0 c 0%N) 0); tauto. Qed.

Lemma decode_sig_integer_spec : forall der len k, len <= length der ->
  decode_sig_integer der len k = Err \/
  exists h c rest, der = h ++ c ++ rest /\ is_hdr 2 (length c) h /\ length h + length c <= len /\ sig_fits k c /\
    decode_sig_integer der len k = Ret (sig_value k c, rest, len - length h - length c).
Proof.
  intros der len k L. destruct (next_tag_spec 2 der len L) as [E|(h & rest & n & -> & Hh & L1 & E)].
  { left. unfold decode_sig_integer. now rewrite E. }
  assert (L3: 3 <= len). { unfold next_tag in E. destruct (len <? 3) eqn:Z; [discriminate|lia]. }
  rewrite app_length in L. assert (Lc: length (firstn n rest) = n) by (rewrite firstn_length; lia).
  pose proof (firstn_skipn n rest) as R.
  set (c := firstn n rest) in *. set (rest' := skipn n rest) in *. clearbody c rest'. subst n rest.
  destruct (decode_sig_integer_run h c rest' len k Hh L3 L1) as (R1 & R2). { rewrite !app_length in *. lia. }
  destruct (sig_fits_dec k c) as [F|F]; [|left; auto]. right. exists h, c, rest'. repeat split; auto.
Qed.

Lemma decode_signature_spec : forall der k,
  decode_signature der k = Err \/
  exists h hr cr hs cs rest, der = h ++ (hr ++ cr ++ hs ++ cs) ++ rest /\
    is_hdr 0x30 (length (hr ++ cr ++ hs ++ cs)) h /\ is_hdr 2 (length cr) hr /\ is_hdr 2 (length cs) hs /\
    sig_fits k cr /\ sig_fits k cs /\ decode_signature der k = Ret (sig_value k cr, sig_value k cs).
Proof.
  intros der k. unfold decode_signature.
  destruct (next_tag_spec 0x30 der (length der) (le_n _)) as [->|(h & rest & n & -> & Hh & L1 & ->)]; [now left|]. cbn [bind].
  rewrite app_length in L1. assert (L2: n <= length rest) by lia.
  destruct (decode_sig_integer_spec rest n k L2) as [->|(hr & cr & rest2 & -> & Hr & L3 & Fr & ->)]; [now left|]. cbn [bind].
  assert (L4: n - length hr - length cr <= length rest2) by (rewrite !app_length in L2; lia).
  destruct (decode_sig_integer_spec rest2 _ k L4) as [->|(hs & cs & rest3 & -> & Hs & L5 & Fs & ->)]; [now left|]. cbn [bind].
  destruct (_ =? 0) eqn:Z; cbn [negb]; [|now left]. right. apply Nat.eqb_eq in Z.
  exists h, hr, cr, hs, cs, rest3. rewrite <- !app_assoc. split; auto.
  replace (length (hr ++ cr ++ hs ++ cs)) with n by (rewrite !app_length; lia). auto 8.
Qed.

Lemma decode_signature_run : forall h hr cr hs cs rest k,
  is_hdr 0x30 (length (hr ++ cr ++ hs ++ cs)) h -> is_hdr 2 (length cr) hr -> is_hdr 2 (length cs) hs ->
  sig_fits k cr -> sig_fits k cs -> 1 <= length cs ->
  decode_signature (h ++ (hr ++ cr ++ hs ++ cs) ++ rest) k = Ret (sig_value k cr, sig_value k cs).
Proof.
  intros h hr cr hs cs rest k Hh Hr Hs Fr Fs Z. unfold decode_signature.
  pose proof (length_is_hdr _ _ _ Hh). pose proof (length_is_hdr _ _ _ Hr). pose proof (length_is_hdr _ _ _ Hs).
  rewrite (next_tag_hdr _ _ _ _ _ Hh) by (rewrite !app_length; lia). cbn [bind].
  rewrite <- !app_assoc.
  destruct (decode_sig_integer_run hr cr (hs ++ cs ++ rest) (length (hr ++ cr ++ hs ++ cs)) k Hr) as (R & _);
    try (rewrite !app_length; lia). rewrite (R Fr). cbn [bind]. clear R.
  destruct (decode_sig_integer_run hs cs rest (length (hr ++ cr ++ hs ++ cs) - length hr - length cr) k Hs) as (R & _);
    try (rewrite !app_length; lia). rewrite (R Fs). cbn [bind].
  replace (_ =? 0) with true by (rewrite !app_length; lia). reflexivity.
Qed.
