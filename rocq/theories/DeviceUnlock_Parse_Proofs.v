(** Parsing authorized unlock data. *)
From Coq Require Import List NArith Lia Bool Arith ZifyBool ZifyNat ZifyN.
From Verif Require Import Base Der_Model Der_Spec Der_Proofs Der_Asn1_Proofs DeviceUnlock_Model DeviceUnlock_Spec.
Import ListNotations.

Lemma read16_ok : forall data o, o + 2 <= length data -> read16 data o = Ret (N.to_nat (nth o data 0 + 256 * nth (o + 1) data 0)%N).
Proof. intros. unfold read16. rewrite (rd_ok data o 0%N) by lia. cbn [bind]. rewrite (rd_ok data (o + 1) 0%N) by lia. reflexivity. Qed.

Definition word_at (data : list N) (o : nat) : nat := N.to_nat (nth o data 0 + 256 * nth (o + 1) data 0)%N.

Lemma parse_container_eq : forall data, parse_container data =
  if length data <? 2 then Err
  else if length data <? 4 + word_at data 0 then Err
  else if length data <? 4 + word_at data 0 + word_at data (2 + word_at data 0) then Err
  else Ret (Container 2 (word_at data 0) (4 + word_at data 0) (word_at data (2 + word_at data 0))).
Proof.
  intros data. unfold parse_container. cbv zeta. unfold field at 1.
  destruct (Nat.ltb_spec (length data) (0 + 2)) as [A|A]; cbn [bind].
  { replace (length data <? 2) with true by lia. reflexivity. }
  replace (length data <? 2) with false by lia. rewrite read16_ok by lia. cbn [bind]. fold (word_at data 0). set (tl := word_at data 0).
  unfold field at 1. destruct (Nat.ltb_spec (length data) (0 + 2 + tl)) as [B|B]; cbn [bind].
  { replace (length data <? 4 + tl) with true by lia. reflexivity. }
  unfold field at 1. destruct (Nat.ltb_spec (length data) (0 + 2 + tl + 2)) as [C|C]; cbn [bind].
  { replace (length data <? 4 + tl) with true by lia. reflexivity. }
  replace (length data <? 4 + tl) with false by lia. rewrite read16_ok by lia. cbn [bind]. fold (word_at data (0 + 2 + tl)).
  change (0 + 2 + tl) with (2 + tl). set (pl := word_at data (2 + tl)).
  unfold field. replace (2 + tl + 2 + pl) with (4 + tl + pl) by lia. replace (2 + tl + 2) with (4 + tl) by lia. change (0 + 2) with 2.
  destruct (Nat.ltb_spec (length data) (4 + tl + pl)); reflexivity.
Qed.

Lemma word_at_app : forall a x y b, word_at (a ++ x :: y :: b) (length a) = N.to_nat (x + 256 * y).
Proof.
  intros. unfold word_at. rewrite !app_nth2 by lia. rewrite Nat.sub_diag. replace (length a + 1 - length a) with 1 by lia. reflexivity.
Qed.

Lemma le16_word : forall n, (n < 65536)%N -> (n mod 256 + 256 * (n / 256 mod 256))%N = n.
Proof.
  intros n H. pose proof (N.div_mod n 256 ltac:(discriminate)). assert (n / 256 < 256)%N by (apply N.div_lt_upper_bound; lia).
  rewrite (N.mod_small (n / 256) 256) by auto. lia.
Qed.

Lemma length_body : forall t p, length (body t p) = 4 + length t + length p.
Proof. intros. unfold body. rewrite !app_length. cbn [length le16]. lia. Qed.

Lemma parse_body : forall t p s, fits t -> fits p ->
  parse_container (body t p ++ s) = Ret (Container 2 (length t) (4 + length t) (length p)).
Proof.
  intros t p s FT FP. unfold fits in *. rewrite parse_container_eq. rewrite app_length, length_body.
  assert (W0: word_at (body t p ++ s) 0 = length t).
  { unfold body, le16. cbn [app]. pose proof (word_at_app [] ((N.of_nat (length t)) mod 256) ((N.of_nat (length t)) / 256 mod 256)) as Q.
    cbn [app length] in Q. rewrite Q. rewrite le16_word by auto. lia. }
  assert (W1: word_at (body t p ++ s) (2 + length t) = length p).
  { unfold body. replace (2 + length t) with (length (le16 (N.of_nat (length t)) ++ t)) by (rewrite app_length; reflexivity).
    replace ((le16 (N.of_nat (length t)) ++ t ++ le16 (N.of_nat (length p)) ++ p) ++ s)
      with ((le16 (N.of_nat (length t)) ++ t) ++ (N.of_nat (length p) mod 256)%N :: (N.of_nat (length p) / 256 mod 256)%N :: (p ++ s))
      by (rewrite <- !app_assoc; reflexivity).
    rewrite word_at_app, le16_word by auto. lia. }
  rewrite W0, W1.
  set (L := 4 + length t + length p + length s). replace (L <? 2) with false by lia. replace (L <? 4 + length t) with false by lia. replace (L <? 4 + length t + length p) with false by lia.
  reflexivity.
Qed.

Lemma byte_at : forall (l : list N) i, bytes_ok l -> i < length l -> (nth i l 0 < 256)%N.
Proof. intros l i B L. exact (proj1 (Forall_forall _ _) B _ (nth_In _ _ L)). Qed.

Lemma word_bytes : forall data o, bytes_ok data -> o + 2 <= length data ->
  window o 2 data = le16 (N.of_nat (word_at data o)) /\ (N.of_nat (word_at data o) < 65536)%N.
Proof.
  intros data o B L. unfold word_at.
  assert (X := byte_at data o B ltac:(lia)). assert (Y := byte_at data (o + 1) B ltac:(lia)).
  set (x := nth o data 0%N) in *. set (y := nth (o + 1) data 0%N) in *. rewrite N2Nat.id. split; [|lia].
  assert (W: window o 2 data = [x; y]).
  { apply (nth_ext_len 0%N); [rewrite length_window; cbn [length]; lia|]. intros i I0. rewrite length_window in I0.
    rewrite nth_window by lia. destruct i as [|[|i]]; [rewrite Nat.add_0_r; reflexivity|reflexivity|lia]. }
  rewrite W. unfold le16.
  assert (Z1: ((x + 256 * y) mod 256 = x)%N).
  { rewrite N.mul_comm, N.mod_add by discriminate. apply N.mod_small; lia. }
  assert (Z2: ((x + 256 * y) / 256 = y)%N).
  { rewrite N.mul_comm, N.div_add by discriminate. rewrite N.div_small by lia. lia. }
  rewrite Z1, Z2. rewrite N.mod_small by lia. reflexivity.
Qed.

Lemma split_at : forall (l : list N) o n, o + n <= length l -> l = firstn o l ++ window o n l ++ skipn (o + n) l.
Proof. intros. unfold window. rewrite <- skipn_skipn. now rewrite !firstn_skipn. Qed.

Lemma parse_sound : forall data p, bytes_ok data -> parse_container data = Ret p ->
  exists t pol s, data = body t pol ++ s /\ fits t /\ fits pol /\ p = Container 2 (length t) (4 + length t) (length pol) /\
    window 2 (length t) data = t.
Proof.
  intros data p B H. rewrite parse_container_eq in H.
  destruct (Nat.ltb_spec (length data) 2); [discriminate|].
  destruct (Nat.ltb_spec (length data) (4 + word_at data 0)); [discriminate|].
  destruct (Nat.ltb_spec (length data) (4 + word_at data 0 + word_at data (2 + word_at data 0))); [discriminate|].
  injection H as <-.
  destruct (word_bytes data 0 B ltac:(lia)) as [W0 F0]. set (tl := word_at data 0) in *.
  destruct (word_bytes data (2 + tl) B ltac:(lia)) as [W1 F1]. set (pl := word_at data (2 + tl)) in *.
  assert (LT: length (window 2 tl data) = tl) by (rewrite length_window; lia).
  assert (LP: length (window (4 + tl) pl data) = pl) by (rewrite length_window; lia).
  exists (window 2 tl data), (window (4 + tl) pl data), (skipn (4 + tl + pl) data).
  unfold fits. rewrite LT, LP. split; [|auto].
  unfold body. rewrite LT, LP, <- W0, <- W1.
  pose proof (split_at data 0 (4 + tl + pl) ltac:(lia)) as Q. cbn [firstn app] in Q. cbn [plus] in Q |- *. rewrite Q at 1. f_equal.
  replace (S (S (S (S (tl + pl))))) with (2 + (tl + (2 + pl))) by lia.
  rewrite window_split. f_equal. rewrite window_split. f_equal. rewrite window_split. f_equal. f_equal. lia.
Qed.

Lemma parse_no_over : forall data, parse_container data <> Over.
Proof. intros. rewrite parse_container_eq. destruct (_ <? _); [|destruct (_ <? _); [|destruct (_ <? _)]]; discriminate. Qed.

(** ** The token *)
Lemma header_no_over : forall der, header (2 ^ 32) der <> Over.
Proof.
  intros der. unfold header. destruct (length der <? 2) eqn:L; [discriminate|].
  rewrite (rd_ok der 1 0%N) by lia. cbn [bind].
  repeat match goal with
  | |- context [if (_ =? _)%N then _ else _] => destruct (_ =? _)%N
  | |- context [if length der <? ?n then _ else _] => destruct (length der <? n) eqn:?
  | |- context [rd der ?i] => rewrite (rd_ok der i 0%N) by lia; cbn [bind]
  | |- _ => discriminate
  end. destruct (_ <? _)%N; discriminate.
Qed.

Lemma parse_token_eq : forall data p, parse_container data = Ret p -> p_token p + p_token_len p <= length data ->
  parse_token data =
  (n <- item_len (window (p_token p) (p_token_len p) data);
   match n with
   | None => Err
   | Some n =>
     let c := N.to_nat (nth (n + 18) (window (p_token p) (p_token_len p) data) 0%N) in
     if p_token_len p <? n + 19 then Err
     else if p_token_len p <? n + 19 + c + 32 then Err
     else Ret (Parts (p_token p + (n + 19)) c (p_token p + (n + 19 + c)))
   end).
Proof.
  intros data p P L. unfold parse_token. rewrite P. cbn [bind]. cbv zeta. set (w := window (p_token p) (p_token_len p) data).
  assert (LW: length w = p_token_len p) by (unfold w; rewrite length_window; lia). clearbody w. set (len := p_token_len p) in *.
  destruct (item_len w) as [n| |]; cbn [bind]; auto. destruct n as [n|]; auto.
  unfold UUID_LEN, NONCE_LEN.
  destruct (Nat.ltb_spec len n) as [A|A]. { replace (len <? n + 19) with true by lia. reflexivity. }
  unfold field. replace (len <? 0 + n) with false by lia. cbn [bind].
  destruct (Nat.ltb_spec len (0 + n + 2)) as [A1|A1]; cbn [bind]. { replace (len <? n + 19) with true by lia. reflexivity. }
  destruct (Nat.ltb_spec len (0 + n + 2 + 16)) as [A2|A2]; cbn [bind]. { replace (len <? n + 19) with true by lia. reflexivity. }
  destruct (Nat.ltb_spec len (0 + n + 2 + 16 + 1)) as [A3|A3]; cbn [bind]. { replace (len <? n + 19) with true by lia. reflexivity. }
  replace (len <? n + 19) with false by lia. rewrite (rd_ok w (0 + n + 2 + 16) 0%N) by lia. cbn [bind].
  replace (0 + n + 2 + 16) with (n + 18) by lia. set (c := N.to_nat (nth (n + 18) w 0%N)).
  replace (n + 18 + 1) with (n + 19) by lia.
  destruct (Nat.ltb_spec len (n + 19 + c)) as [A4|A4]; cbn [bind]. { replace (len <? n + 19 + c + 32) with true by lia. reflexivity. }
  destruct (Nat.ltb_spec len (n + 19 + c + 32)) as [A5|A5]; cbn [bind]; reflexivity.
Qed.

Lemma item_len_no_over : forall w, item_len w <> Over.
Proof. intros w. unfold item_len. pose proof (header_no_over w). destruct (header (2 ^ 32) w) as [[]| |]; congruence. Qed.

Lemma item_len_item : forall tag content e rest, item tag content e -> (N.of_nat (length e) < 2 ^ 31)%N ->
  item_len (e ++ rest) = Ret (Some (length e)).
Proof.
  intros tag content e rest (f & LF & L5 & ->) SM. cbn [length] in SM. rewrite app_length in SM. unfold item_len. cbn [app]. rewrite <- app_assoc.
  rewrite (header_run (2 ^ 32) tag f _ (content ++ rest) LF L5). rewrite of_int_small by lia. cbv zeta.
  rewrite N.mod_small by lia. replace (_ <? 2 ^ 31)%N with true by lia. do 2 f_equal. cbn [length]. rewrite app_length. lia.
Qed.

Lemma item_len_sound : forall w n, bytes_ok w -> item_len w = Ret (Some n) -> n <= length w ->
  (exists tag content, item tag content (firstn n w)) \/ (n < 6 /\ 6 <= length w /\ window 1 4 w = [0x84; 255; 255; 255]%N).
Proof.
  intros w n B H LE. unfold item_len in H.
  destruct (header_spec (2 ^ 32) w B) as [E|(t & f & m & rest & -> & LF & L5 & E)]; rewrite E in H; [discriminate|]. cbv zeta in H.
  cbn [length] in LE. rewrite app_length in LE.
  assert (M: (m < 2 ^ 32)%N).
  { destruct LF as [(X & _)|(bs & X1 & X2 & X3 & X4)]; [lia|]. subst f. cbn [length] in L5. rewrite <- X3. pose proof (be_value_bound bs X2) as Y.
    assert (256 ^ N.of_nat (length bs) <= 256 ^ 4)%N by (apply N.pow_le_mono_r; lia). change (256 ^ 4)%N with (2 ^ 32)%N in *. lia. }
  destruct (N.lt_ge_cases m (2 ^ 31)) as [S|S].
  - left. rewrite of_int_small in H by auto. rewrite N.mod_small in H by lia.
    destruct (_ <? 2 ^ 31)%N eqn:Q in H; [|discriminate]. injection H as <-.
    exists t, (firstn (N.to_nat m) rest). exists f. split; [rewrite firstn_length, Nat.min_l by lia; rewrite N2Nat.id; exact LF|]. split; [exact L5|].
    match goal with |- firstn ?k _ = _ => assert (k = Datatypes.S (length f + N.to_nat m)) as -> by lia end. cbn [firstn].
    rewrite firstn_app_ge by lia. do 3 f_equal. lia.
  - right. unfold of_int in H. replace (m <? 2 ^ 31)%N with false in H by lia. rewrite N.sub_diag, N.add_0_r in H.
    destruct LF as [(X & _)|(bs & X1 & X2 & X3 & X4)]; [lia|]. subst f. cbn [length] in *.
    assert (L4: length bs = 4).
    { assert (~ length bs <= 3); [|lia]. intros Q. pose proof (be_value_bound bs X2) as Y.
      assert (256 ^ N.of_nat (length bs) <= 256 ^ 3)%N by (apply N.pow_le_mono_r; lia). change (256 ^ 3)%N with (2 ^ 24)%N in *. lia. }
    rewrite L4 in *. change (N.of_nat 6) with 6%N in H.
    assert (GE: (2 ^ 32 - 6 <= m)%N).
    { destruct (N.lt_ge_cases m (2 ^ 32 - 6)) as [C|C]; [|auto]. rewrite N.mod_small in H by lia.
      replace (m + 6 <? 2 ^ 31)%N with false in H by lia. discriminate. }
    assert (MM: ((m + 6) mod 2 ^ 32 = m + 6 - 2 ^ 32)%N).
    { replace (m + 6)%N with (m + 6 - 2 ^ 32 + 1 * 2 ^ 32)%N at 1 by lia. rewrite N.mod_add by discriminate. apply N.mod_small. lia. }
    rewrite MM in H. replace (_ <? 2 ^ 31)%N with true in H by lia. injection H as <-.
    split; [lia|]. split; [rewrite app_length; cbn [length]; lia|].
    destruct bs as [|b0 [|b1 [|b2 [|b3 [|]]]]]; cbn [length] in L4; try lia.
    assert (BB: byte_ok b0 /\ byte_ok b1 /\ byte_ok b2 /\ byte_ok b3).
    { unfold bytes_ok in X2. repeat match goal with X : Forall _ (_ :: _) |- _ => inversion X; clear X; subst end. auto. }
    destruct BB as (Y0 & Y1 & Y2 & Y3). unfold byte_ok in *.
    unfold be_value in X3. cbn [fold_left] in X3. clear - X3 GE Y0 Y1 Y2 Y3. change (2 ^ 32)%N with 4294967296%N in GE. assert (b0 = 255 /\ b1 = 255 /\ b2 = 255)%N as (-> & -> & ->) by lia. reflexivity.
Qed.

(** ** Everything about the parsers *)
Lemma body_window : forall t p s, window 2 (length t) (body t p ++ s) = t.
Proof.
  intros. unfold body, window. rewrite <- !app_assoc. cbn [le16 app skipn]. now rewrite firstn_app, Nat.sub_diag, firstn_all, firstn_O, app_nil_r.
Qed.

Lemma bytes_at_ok : forall data o n, o + n <= length data -> bytes_at data o n = Ret (window o n data).
Proof. intros. unfold bytes_at. now replace (o + n <=? length data) with true by lia. Qed.

Lemma window_mid : forall (a b c : list N), window (length a) (length b) (a ++ b ++ c) = b.
Proof.
  intros. unfold window. rewrite skipn_app, Nat.sub_diag, skipn_all. cbn [app skipn]. now rewrite firstn_app, Nat.sub_diag, firstn_all, firstn_O, app_nil_r.
Qed.

Lemma policy_body : forall t p s, fits t -> fits p -> get_unlock_policy (body t p ++ s) = Ret p.
Proof.
  intros t p s FT FP. unfold get_unlock_policy. rewrite parse_body by auto. cbn [bind p_policy p_policy_len].
  rewrite bytes_at_ok by (rewrite app_length, length_body; lia). f_equal. unfold body.
  replace (4 + length t) with (length (le16 (N.of_nat (length t)) ++ t ++ le16 (N.of_nat (length p)))) by (rewrite !app_length; cbn [length le16]; lia).
  replace ((le16 (N.of_nat (length t)) ++ t ++ le16 (N.of_nat (length p)) ++ p) ++ s)
    with ((le16 (N.of_nat (length t)) ++ t ++ le16 (N.of_nat (length p))) ++ p ++ s) by (rewrite <- !app_assoc; reflexivity).
  apply window_mid.
Qed.

Lemma counter_body : forall e fmt u c nonce sg p s, item_len (e ++ fmt ++ u ++ [N.of_nat (length c)] ++ c ++ nonce ++ sg) = Ret (Some (length e)) ->
  length fmt = 2 -> length u = 16 -> length nonce = 32 ->
  fits (e ++ fmt ++ u ++ [N.of_nat (length c)] ++ c ++ nonce ++ sg) -> fits p ->
  get_unlock_counter (body (e ++ fmt ++ u ++ [N.of_nat (length c)] ++ c ++ nonce ++ sg) p ++ s) = Ret c /\
  get_nonce (body (e ++ fmt ++ u ++ [N.of_nat (length c)] ++ c ++ nonce ++ sg) p ++ s) = Ret nonce.
Proof.
  intros e fmt u c nonce sg p s IL LF LU LN FT FP. set (t := e ++ fmt ++ u ++ [N.of_nat (length c)] ++ c ++ nonce ++ sg) in *.
  assert (LT: length t = length e + 19 + length c + 32 + length sg).
  { unfold t. rewrite !app_length, LF, LU, LN. cbn [length]. lia. }
  assert (PT: parse_token (body t p ++ s) = Ret (Parts (2 + (length e + 19)) (length c) (2 + (length e + 19 + length c)))).
  { rewrite (parse_token_eq _ _ (parse_body t p s FT FP)) by (cbn [p_token p_token_len]; rewrite app_length, length_body; lia).
    cbn [p_token p_token_len]. rewrite body_window, IL. cbn [bind]. cbv zeta.
    assert (nth (length e + 18) t 0%N = N.of_nat (length c)) as ->.
    { unfold t. rewrite app_nth2 by lia. rewrite app_nth2 by lia. rewrite app_nth2 by lia. rewrite LF, LU.
      replace (length e + 18 - length e - 2 - 16) with 0 by lia. reflexivity. }
    rewrite Nat2N.id. replace (_ <? _) with false by lia. replace (_ <? _) with false by lia. reflexivity. }
  unfold get_unlock_counter, get_nonce. rewrite PT. cbn [bind t_counter t_counter_len t_nonce]. unfold NONCE_LEN.
  rewrite !bytes_at_ok by (rewrite app_length, length_body; lia).
  assert (W: forall o n, o + n <= length t -> window (2 + o) n (body t p ++ s) = window o n t).
  { intros o n L. unfold body, window. rewrite <- !app_assoc. cbn [le16 app plus skipn]. rewrite skipn_app_le by lia.
    rewrite firstn_app_le by (rewrite skipn_length; lia). reflexivity. }
  rewrite !W by lia. unfold t. split; f_equal.
  - replace (length e + 19) with (length (e ++ fmt ++ u ++ [N.of_nat (length c)])) by (rewrite !app_length, LF, LU; cbn [length]; lia).
    replace (e ++ fmt ++ u ++ [N.of_nat (length c)] ++ c ++ nonce ++ sg) with ((e ++ fmt ++ u ++ [N.of_nat (length c)]) ++ c ++ (nonce ++ sg))
      by (rewrite <- !app_assoc; reflexivity). apply window_mid.
  - replace (length e + 19 + length c) with (length (e ++ fmt ++ u ++ [N.of_nat (length c)] ++ c)) by (rewrite !app_length, LF, LU; cbn [length]; lia).
    replace (e ++ fmt ++ u ++ [N.of_nat (length c)] ++ c ++ nonce ++ sg) with ((e ++ fmt ++ u ++ [N.of_nat (length c)] ++ c) ++ nonce ++ sg)
      by (rewrite <- !app_assoc; reflexivity). rewrite <- LN. apply window_mid.
Qed.

Lemma token_no_over : forall data, parse_token data <> Over /\
  forall t, parse_token data = Ret t -> t_counter t + t_counter_len t <= length data /\ t_nonce t + 32 <= length data.
Proof.
  intros data. destruct (parse_container data) as [p| |] eqn:P; [| |exfalso; exact (parse_no_over data P)].
  2: { unfold parse_token. rewrite P. split; [discriminate|intros; discriminate]. }
  assert (L: p_token p + p_token_len p <= length data).
  { rewrite parse_container_eq in P. destruct (_ <? _); [discriminate|]. destruct (Nat.ltb_spec (length data) (4 + word_at data 0)); [discriminate|].
    destruct (_ <? _); [discriminate|]. injection P as <-. cbn [p_token p_token_len]. lia. }
  rewrite (parse_token_eq data p P L). pose proof (item_len_no_over (window (p_token p) (p_token_len p) data)) as NO.
  destruct (item_len _) as [[n|]| |]; cbn [bind]; [|split; intros; discriminate|split; intros; discriminate|congruence]. cbv zeta.
  destruct (Nat.ltb_spec (p_token_len p) (n + 19)); [split; intros; discriminate|].
  destruct (Nat.ltb_spec (p_token_len p) (n + 19 + N.to_nat (nth (n + 18) (window (p_token p) (p_token_len p) data) 0%N) + 32)); [split; intros; discriminate|].
  split; [discriminate|]. intros t E. injection E as <-. cbn [t_counter t_counter_len t_nonce]. lia.
Qed.

Lemma counter_sound : forall data c, bytes_ok data -> get_unlock_counter data = Ret c ->
  exists e fmt u nonce sg p s, length fmt = 2 /\ length u = 16 /\ length nonce = 32 /\ length c < 256 /\
    data = body (e ++ fmt ++ u ++ [N.of_nat (length c)] ++ c ++ nonce ++ sg) p ++ s /\
    fits (e ++ fmt ++ u ++ [N.of_nat (length c)] ++ c ++ nonce ++ sg) /\ fits p /\ get_nonce data = Ret nonce /\
    ((exists tag content, item tag content e) \/
     (length e < 6 /\ window 1 4 (e ++ fmt ++ u) = [0x84; 255; 255; 255]%N)).
Proof.
  intros data c B H. unfold get_unlock_counter in H.
  destruct (parse_container data) as [p| |] eqn:P; [| unfold parse_token in H; rewrite P in H; discriminate | exfalso; exact (parse_no_over data P)].
  destruct (parse_sound data p B P) as (t & pol & s & D & FT & FP & -> & WT).
  assert (LD: length data = 4 + length t + length pol + length s) by (rewrite D, app_length, length_body; lia).
  rewrite (parse_token_eq data _ P) in H by (cbn [p_token p_token_len]; lia). cbn [p_token p_token_len] in H. rewrite WT in H.
  destruct (item_len t) as [[n|]| |] eqn:IL; cbn [bind] in H; try discriminate. cbv zeta in H.
  destruct (Nat.ltb_spec (length t) (n + 19)); [discriminate|]. set (k := N.to_nat (nth (n + 18) t 0%N)) in *.
  destruct (Nat.ltb_spec (length t) (n + 19 + k + 32)); [discriminate|]. cbn [bind t_counter t_counter_len] in H.
  rewrite bytes_at_ok in H by lia. injection H as HC.
  assert (BT: bytes_ok t). { rewrite <- WT. unfold window. apply Forall_firstn, Forall_skipn, B. }
  assert (KB := byte_at t (n + 18) BT ltac:(lia)).
  assert (HW: window (n + 19) k t = c).
  { rewrite <- HC, <- WT. set (q := 2 + (n + 19)). unfold window. rewrite skipn_firstn_comm. rewrite firstn_firstn, Nat.min_l by lia. rewrite skipn_skipn. reflexivity. }
  assert (LC: length c = k) by (rewrite <- HW, length_window; lia).
  assert (TE: t = firstn n t ++ window n 2 t ++ window (n + 2) 16 t ++ [N.of_nat (length c)] ++ c ++ window (n + 19 + k) 32 t ++ skipn (n + 51 + k) t).
  { rewrite <- HW at 2. rewrite LC. unfold k at 1. rewrite N2Nat.id.
    assert (ON: [nth (n + 18) t 0%N] = window (n + 18) 1 t).
    { apply (nth_ext_len 0%N); [rewrite length_window; cbn [length]; lia|]. intros i I0. cbn [length] in I0. replace i with 0 by lia.
      rewrite nth_window by lia. rewrite Nat.add_0_r. reflexivity. }
    rewrite ON. rewrite (split_at t n (2 + (16 + (1 + (k + 32))))) at 1 by lia. f_equal.
    rewrite !window_split, <- !app_assoc.
    replace (n + 2 + 16) with (n + 18) by lia. replace (n + 18 + 1) with (n + 19) by lia.
    replace (n + (2 + (16 + (1 + (k + 32))))) with (n + 51 + k) by lia. reflexivity. }
  exists (firstn n t), (window n 2 t), (window (n + 2) 16 t), (window (n + 19 + k) 32 t), (skipn (n + 51 + k) t), pol, s.
  rewrite <- TE.
  assert (L1: length (window n 2 t) = 2) by (rewrite length_window; lia).
  assert (L2: length (window (n + 2) 16 t) = 16) by (rewrite length_window; lia).
  assert (L3: length (window (n + 19 + k) 32 t) = 32) by (rewrite length_window; lia).
  assert (L0: length (firstn n t) = n) by (rewrite firstn_length; lia).
  split; [auto|]. split; [auto|]. split; [auto|]. split; [lia|]. split; [auto|]. split; [auto|]. split; [auto|]. split.
  - pose proof (counter_body (firstn n t) (window n 2 t) (window (n + 2) 16 t) c (window (n + 19 + k) 32 t) (skipn (n + 51 + k) t) pol s) as Q. rewrite <- TE in Q. rewrite L0 in Q.
    rewrite D. exact (proj2 (Q IL L1 L2 L3 FT FP)).
  - destruct (item_len_sound t n BT IL ltac:(lia)) as [I1|(I1 & I2 & I3)]; [left; auto|right]. split; [lia|].
    rewrite <- I3. set (y := window n 2 t ++ window (n + 2) 16 t).
    assert (LY: length y = 18) by (unfold y; rewrite app_length; lia).
    rewrite TE at 2. unfold window at 1. unfold window at 1.
    replace (firstn n t ++ window n 2 t ++ window (n + 2) 16 t ++ [N.of_nat (length c)] ++ c ++ window (n + 19 + k) 32 t ++ skipn (n + 51 + k) t)
      with ((firstn n t ++ y) ++ [N.of_nat (length c)] ++ c ++ window (n + 19 + k) 32 t ++ skipn (n + 51 + k) t)
      by (unfold y; rewrite <- !app_assoc; reflexivity).
    rewrite (skipn_app_le (firstn n t ++ y)) by (rewrite app_length; lia).
    rewrite firstn_app_le by (rewrite skipn_length, app_length; lia). reflexivity.
Qed.
