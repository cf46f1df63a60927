(** Secured messages: what is decoded and encoded. *)
From Coq Require Import List NArith Bool Arith Lia ZArith.
From Verif Require Import Base SpdmSession_Model SpdmSession_Spec SpdmSession_Proofs SpdmSession_Run_Proofs.
From Verif Require FlashLog_Scan_Proofs DeviceUnlock_Parse_Proofs.
Import ListNotations.

(** ** IVs and windows *)
Lemma byte_of_mod : forall n a c, a <> 0%N -> c <> 0%N -> ((n mod (a * (256 * c))) / a mod 256 = n / a mod 256)%N.
Proof.
  intros n a c A C. rewrite N.mod_mul_r by (lia || nia). rewrite N.add_comm, N.mul_comm, N.div_add_l by exact A. rewrite (N.div_small (n mod a) a) by (apply N.mod_lt; exact A).
  rewrite N.add_0_r, N.mod_mul_r by lia. rewrite N.mul_comm, N.mod_add by lia. apply N.mod_mod. lia.
Qed.
Lemma iv_of_make : forall sl n, length sl = 12 -> iv_of sl n = make_iv sl n.
Proof.
  intros sl n L. destruct sl as [|a0 [|a1 [|a2 [|a3 [|a4 [|a5 [|a6 [|a7 [|a8 [|a9 [|a10 [|a11 [|]]]]]]]]]]]]]; try discriminate L. clear L.
  unfold iv_of, make_iv, xors, le64, le32. change (seq 0 12) with [0;1;2;3;4;5;6;7;8;9;10;11].
  cbn [map firstn skipn app combine fst snd nth Nat.ltb Nat.leb].
  change (2 ^ 32)%N with 4294967296%N.
  change (256 ^ N.of_nat 0)%N with 1%N. change (256 ^ N.of_nat 1)%N with 256%N. change (256 ^ N.of_nat 2)%N with 65536%N. change (256 ^ N.of_nat 3)%N with 16777216%N.
  change (256 ^ N.of_nat 4)%N with 4294967296%N. change (256 ^ N.of_nat 5)%N with (4294967296 * 256)%N. change (256 ^ N.of_nat 6)%N with (4294967296 * 65536)%N.
  change (256 ^ N.of_nat 7)%N with (4294967296 * 16777216)%N. rewrite <- !N.div_div by discriminate. rewrite N.div_1_r.
  assert (E0 : ((n mod 4294967296) mod 256 = n mod 256)%N) by (pose proof (byte_of_mod n 1 16777216) as H; rewrite !N.div_1_r in H; apply H; discriminate).
  assert (E1 : ((n mod 4294967296) / 256 mod 256 = n / 256 mod 256)%N) by (apply (byte_of_mod n 256 65536); discriminate).
  assert (E2 : ((n mod 4294967296) / 65536 mod 256 = n / 65536 mod 256)%N) by (apply (byte_of_mod n 65536 256); discriminate).
  assert (E3 : ((n mod 4294967296) / 16777216 mod 256 = n / 16777216 mod 256)%N) by (apply (byte_of_mod n 16777216 1); discriminate).
  rewrite E0, E1, E2, E3. reflexivity.
Qed.
Lemma window_at : forall (a b c : list N) o n, length a = o -> length b = n -> window o n (a ++ b ++ c) = b.
Proof. intros a b c o n <- <-. apply DeviceUnlock_Parse_Proofs.window_mid. Qed.
Lemma window_after : forall (l d : list N) o p n, o + length d <= length l -> o + length d <= p -> window p n (splice l o d) = window p n l.
Proof.
  intros l d o p n L G. unfold window, splice. f_equal. rewrite app_assoc. rewrite skipn_app_ge; rewrite app_length, firstn_length_le by lia; [|exact G].
  rewrite skipn_skipn. f_equal. lia.
Qed.
Lemma window_before : forall (l d : list N) o p n, o <= length l -> p + n <= o -> window p n (splice l o d) = window p n l.
Proof.
  intros l d o p n L G. unfold window, splice. rewrite skipn_app_le by (rewrite firstn_length_le by lia; lia).
  rewrite firstn_app_le by (rewrite skipn_length, firstn_length_le by lia; lia).
  rewrite <- (firstn_skipn o l) at 2. rewrite skipn_app_le by (rewrite firstn_length_le by lia; lia).
  rewrite firstn_app_le by (rewrite skipn_length, firstn_length_le by lia; lia). reflexivity.
Qed.
Lemma app_inj_len : forall (a b c d : list N), length a = length c -> a ++ b = c ++ d -> a = c /\ b = d.
Proof.
  induction a as [|x a IH]; intros b [|y c] d L E; try discriminate L; [split; [reflexivity|exact E]|]. cbn [app] in E. injection E as -> E.
  cbn [length] in L. destruct (IH b c d) as [-> ->]; auto.
Qed.

Section Aead.
Variable seal : list N -> list N -> list N -> list N -> list N.
Variable tag : list N -> list N -> list N -> list N -> list N.
Variable opn : list N -> list N -> list N -> list N -> list N -> option (list N).
Hypothesis G : gcm seal tag opn.

Lemma length_header : forall id app, length (header id app) = 6.
Proof. reflexivity. Qed.
Lemma length_secured : forall id k sl n app, length (secured seal tag id k sl n app) = length app + 24.
Proof.
  intros. destruct G as (L1 & L2 & _). unfold secured. cbv zeta. rewrite !app_length, L1, L2, length_header, app_length. change (length (le16 _)) with 2. lia.
Qed.

Lemma decrypt_ok : forall m d id app, length (salt d) = 12 -> off m + plen m <= length (buf m) ->
  payload m = secured seal tag id (dkey d) (salt d) (count d) app -> (N.of_nat (length app) + 18 < 65536)%N ->
  exists m1, decrypt opn m d all_works = (Some m1, [Opened (dkey d) (iv_of (salt d) (count d)) (header id app)
      (seal (dkey d) (iv_of (salt d) (count d)) (header id app) (le16 (N.of_nat (length app)) ++ app))
      (tag (dkey d) (iv_of (salt d) (count d)) (header id app) (seal (dkey d) (iv_of (salt d) (count d)) (header id app) (le16 (N.of_nat (length app)) ++ app)))
      (le16 (N.of_nat (length app)) ++ app)]) /\
    payload m1 = app /\ off m1 = off m + 8 /\ plen m1 = length app /\ maxr m1 = maxr m /\ length (buf m1) = length (buf m).
Proof.
  intros m d id app LS FIT E SM. destruct G as (L1 & L2 & OP & _).
  assert (PL : plen m = length app + 24).
  { pose proof (f_equal (@length N) E) as H. unfold payload in H. rewrite length_window, length_secured in H. lia. }
  unfold decrypt. cbv zeta. rewrite E, <- (iv_of_make (salt d) (count d) LS). rewrite PL.
  unfold secured. cbv zeta. set (iv := iv_of (salt d) (count d)). set (pt := le16 (N.of_nat (length app)) ++ app). set (aad := header id app).
  set (ct := seal (dkey d) iv aad pt). set (tg := tag (dkey d) iv aad ct).
  assert (LP : length pt = 2 + length app) by (unfold pt; rewrite app_length; reflexivity).
  assert (LC : length ct = 2 + length app) by (unfold ct; rewrite L1; exact LP).
  assert (LT : length tg = 16) by apply L2.
  replace (length app + 24 <? 6 + 16) with false by (symmetry; apply Nat.ltb_ge; lia).
  assert (W4 : window 4 2 (aad ++ ct ++ tg) = le16 (N.of_nat (length app + 18))).
  { unfold aad, header. rewrite <- app_assoc. apply window_at; reflexivity. }
  rewrite W4, FlashLog_Scan_Proofs.le_value_le16 by lia. rewrite Nat2N.id.
  replace (length app + 24 - 6 <? length app + 18) with false by (symmetry; apply Nat.ltb_ge; lia).
  replace (length app + 18 <? 16) with false by (symmetry; apply Nat.ltb_ge; lia).
  replace (length app + 18 - 16) with (2 + length app) by lia.
  assert (F6 : firstn 6 (aad ++ ct ++ tg) = aad) by reflexivity. rewrite F6.
  rewrite (window_at aad ct tg 6 (2 + length app)) by (exact LC || reflexivity).
  assert (WT : window (6 + (2 + length app)) 16 (aad ++ ct ++ tg) = tg).
  { rewrite app_assoc. rewrite <- (app_nil_r tg) at 1. apply window_at; [rewrite app_length, LC; reflexivity|exact LT]. }
  rewrite WT. cbn [all_works k_open w_open andb negb]. unfold tg, ct. rewrite OP. fold ct. fold tg.
  set (b := splice (buf m) (off m + 6) pt).
  assert (FB : off m + 6 + length pt <= length (buf m)) by lia.
  assert (WB : window (off m + 6) (2 + length app) b = pt) by (rewrite <- LP; apply window_splice; exact FB).
  rewrite window_split in WB. unfold pt in WB. apply app_inj_len in WB; [|rewrite length_window; unfold b; rewrite length_splice by exact FB; cbn [le16 length]; lia].
  destruct WB as [W1 W2]. rewrite W1, FlashLog_Scan_Proofs.le_value_le16 by lia. rewrite Nat2N.id.
  replace (2 + length app <? length app) with false by (symmetry; apply Nat.ltb_ge; lia).
  eexists. split; [reflexivity|]. unfold payload. cbn [buf off plen maxr]. split; [replace (off m + 8) with (off m + 6 + 2) by lia; exact W2|].
  do 3 (split; [reflexivity|]). unfold b. apply length_splice. exact FB.
Qed.

Lemma encrypt_ok : forall m d id, length (salt d) = 12 -> 8 <= off m -> off m + plen m <= length (buf m) -> length (payload m) + 24 <= maxr m ->
  off m - 8 + (length (payload m) + 24) <= length (buf m) ->
  exists m1, encrypt seal tag m id d all_works = (Some m1, true, [Sealed (dkey d) (iv_of (salt d) (count d)) (header id (payload m)) (le16 (N.of_nat (length (payload m))) ++ payload m)]) /\
    payload m1 = secured seal tag id (dkey d) (salt d) (count d) (payload m) /\ off m1 = off m - 8 /\ length (buf m1) = length (buf m).
Proof.
  intros m d id LS OFF FIT MX FB. destruct G as (L1 & L2 & _).
  assert (PL : length (payload m) = plen m) by (unfold payload; rewrite length_window; lia). rewrite PL in *.
  unfold encrypt. cbv zeta. replace (maxr m <? 6 + (2 + plen m) + 16) with false by (symmetry; apply Nat.ltb_ge; lia).
  rewrite Nat.min_l by exact OFF. rewrite <- (iv_of_make (salt d) (count d) LS). cbn [all_works k_seal w_seal negb].
  assert (HD : le32 id ++ le16 (N.of_nat (2 + plen m + 16)) = header id (payload m)) by (unfold header; rewrite PL; do 3 f_equal; lia). rewrite HD.
  set (aad := header id (payload m)). set (b := splice (buf m) (off m - 8) (aad ++ le16 (N.of_nat (plen m)))).
  assert (LA : length (aad ++ le16 (N.of_nat (plen m))) = 8) by reflexivity.
  assert (LB : length b = length (buf m)) by (apply length_splice; lia).
  assert (W8 : window (off m - 8) (6 + 2) b = aad ++ le16 (N.of_nat (plen m))) by (change (6 + 2) with (length (aad ++ le16 (N.of_nat (plen m)))); apply window_splice; lia).
  rewrite window_split in W8. apply app_inj_len in W8; [|rewrite length_window, LB; change (length aad) with 6; lia]. destruct W8 as [W6 W2].
  assert (WP : window (off m - 8 + 6) (2 + plen m) b = le16 (N.of_nat (plen m)) ++ payload m).
  { rewrite window_split, W2. f_equal. replace (off m - 8 + 6 + 2) with (off m) by lia. unfold b, payload. apply window_after; lia. }
  rewrite WP, LB. replace (length (buf m) <? off m - 8 + (6 + (2 + plen m) + 16)) with false by (symmetry; apply Nat.ltb_ge; lia).
  set (pt := le16 (N.of_nat (plen m)) ++ payload m). set (iv := iv_of (salt d) (count d)). set (ct := seal (dkey d) iv aad pt). set (tg := tag (dkey d) iv aad ct).
  assert (LP : length pt = 2 + plen m) by (unfold pt; rewrite app_length, PL; reflexivity).
  assert (LC : length (ct ++ tg) = 2 + plen m + 16) by (rewrite app_length; unfold ct, tg; rewrite L1, L2, LP; reflexivity).
  eexists. split; [reflexivity|]. split.
  - unfold payload at 1. cbn [buf off plen]. replace (6 + (2 + plen m) + 16) with (6 + (2 + plen m + 16)) by lia. rewrite window_split.
    rewrite window_before by (rewrite ?LB; lia). rewrite W6. rewrite <- LC, window_splice by (rewrite LC, LB; lia). unfold secured. cbv zeta. rewrite PL. reflexivity.
  - cbn [off buf]. split; [reflexivity|]. rewrite length_splice by (rewrite LC, LB; lia). exact LB.
Qed.
End Aead.
