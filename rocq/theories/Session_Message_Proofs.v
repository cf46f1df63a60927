(** Single calls: the bytes of encrypted messages and of the key exchange response. *)
From Coq Require Import List NArith Lia Bool Arith.
From Coq Require Import ZifyBool ZifyNat ZifyN.
From Verif Require Import Base ByteMath_Model ByteMath_Proofs BufferUtil_Model BufferUtil_Proofs KeyWrap_Proofs Mctp_Proofs
  Session_Model Session_Spec Session_Proofs Session_Inv_Proofs.
Import ListNotations.

Lemma nth_ext_N : forall (a b : list N), length a = length b -> (forall i, i < length a -> nth i a 0%N = nth i b 0%N) -> a = b.
Proof. intros a b L H. apply (nth_ext a b 0%N 0%N); auto. Qed.

Lemma key_entry_inl : forall t eid i, key_entry t eid = inl i -> get_session t eid = Some i /\ usable (e_state (at_ t i)) = true.
Proof.
  intros t eid i H. unfold key_entry in H. destruct (get_session t eid) as [j|]; [|discriminate].
  destruct (usable (e_state (at_ t j))) eqn:U; [|discriminate]. injection H as ->. auto.
Qed.

Lemma length_set_crypt : forall d, length (set_crypt d) = length d.
Proof. intros. apply length_upd. Qed.
Lemma nth_set_crypt : forall d j, j <> 3 -> nth j (set_crypt d) 0%N = nth j d 0%N.
Proof. intros. unfold set_crypt. apply nth_upd_neq. auto. Qed.

Section Message.
Variable enc : list N -> list N -> list N -> list N * list N.
Variable dec : list N -> list N -> list N -> list N -> option (list N).
Variable hmac : list N -> list N -> list N.
Variable kdf : list N -> list N -> list N -> list N.

Definition cipher_lengths : Prop := forall k iv p, length (fst (enc k iv p)) = length p /\ length (snd (enc k iv p)) = 16.

(** What a successful encryption is. *)
Lemma encrypt_ok : forall t m o t' m' u, encrypt enc t m o = (t', m', SmOk, u) -> HEADER <= m_len m ->
  exists i iv, get_session t (m_eid m) = Some i /\ usable (e_state (at_ t i)) = true /\ m_len m + 28 <= m_max m /\
    increment_byte_array (e_iv (at_ t i)) false = (iv, CM_OK) /\ u = Some (e_key (at_ t i), iv) /\
    t' = upd t i (set_e_iv (at_ t i) iv) /\
    let len := m_len m - 4 in
    let d := splice (m_data m) (4 + len + 16) iv in
    let c := enc (e_key (at_ t i)) iv (window 4 len d) in
    m' = Msg (set_crypt (splice (splice d 4 (fst c)) (4 + len) (snd c))) (m_len m + 28) (m_max m) (m_eid m).
Proof. clear dec hmac kdf.
  intros t m o t' m' u H L. unfold encrypt in H.
  destruct (Nat.ltb_spec (m_len m) HEADER); [lia|]. destruct (Nat.ltb_spec (m_max m) (m_len m + TRAILER)); [discriminate|].
  destruct (key_entry t (m_eid m)) as [i|e] eqn:K; [|exfalso; unfold key_entry in K; destruct (get_session t (m_eid m)) as [j|];
    [destruct (usable (e_state (at_ t j)))|]; try discriminate; injection K as <-; discriminate].
  apply key_entry_inl in K. destruct K as (K1 & K2).
  exists i. destruct o; cbv zeta in H; [| discriminate |].
  - destruct (increment_byte_array (e_iv (at_ t i)) false) as [iv []] eqn:I0; try discriminate.
    exists iv. destruct (enc (e_key (at_ t i)) iv (window HEADER_NO_ID (m_len m - HEADER_NO_ID)
       (splice (m_data m) (HEADER_NO_ID + (m_len m - HEADER_NO_ID) + TAG_LEN) iv))) as [ct tag] eqn:E.
    injection H as <- <- <-. unfold TRAILER in *. repeat (split; [auto; fail|]).
    unfold HEADER_NO_ID, TAG_LEN in E. cbv zeta. rewrite E. reflexivity.
  - destruct (increment_byte_array (e_iv (at_ t i)) false) as [iv []] eqn:I0; try discriminate.
    destruct (enc (e_key (at_ t i)) iv (window HEADER_NO_ID (m_len m - HEADER_NO_ID)
       (splice (m_data m) (HEADER_NO_ID + (m_len m - HEADER_NO_ID) + TAG_LEN) iv))) as [ct tag] eqn:E. discriminate.
Qed.

Lemma splice_out : forall (l : list N) o a j, o + length a <= length l -> j < o \/ o + length a <= j ->
  nth j (splice l o a) 0%N = nth j l 0%N.
Proof. clear enc dec hmac kdf. intros. now apply nth_splice_out. Qed.

Lemma iv_12 : forall iv iv' st, length iv = 12 -> increment_byte_array iv false = (iv', st) -> bytes_ok iv -> length iv' = 12.
Proof. clear enc dec hmac kdf. intros iv iv' st L H B. destruct (increment_cases _ _ _ L B H) as [(_ & Q & _)|(_ & ->)]; auto. Qed.

(** The sender's and the receiver's sides of one message. *)
Lemma roundtrip : forall t m t' m' u tb mb i j,
  cipher_lengths -> (forall k iv p, dec k iv (fst (enc k iv p)) (snd (enc k iv p)) = Some p) ->
  ivs_ok t -> encrypt enc t m AesOk = (t', m', SmOk, u) -> HEADER < m_len m -> m_max m <= length (m_data m) ->
  get_session t (m_eid m) = Some i ->
  get_session tb (m_eid mb) = Some j -> usable (e_state (at_ tb j)) = true -> e_key (at_ tb j) = e_key (at_ t i) ->
  m_len mb = m_len m' -> m_max mb <= length (m_data mb) -> m_len mb <= m_max mb ->
  firstn (m_len m') (m_data mb) = firstn (m_len m') (m_data m') ->
  exists mb', decrypt dec tb mb false = (mb', SmOk) /\ m_len mb' = m_len m /\
    firstn (m_len m) (m_data mb') = set_crypt (firstn (m_len m) (m_data m)).
Proof. clear hmac kdf.
  intros t m t' m' u tb mb i j CL D IV H L LD G GB UB KB ML MX MM ME.
  destruct (encrypt_ok _ _ _ _ _ _ H ltac:(lia)) as (i0 & iv & G0 & U & R & I0 & _ & _ & E).
  assert (i0 = i) as -> by congruence. cbv zeta in E.
  destruct (get_session_some _ _ _ G) as (Li & _ & Ui). destruct (IV i Li Ui) as (I1 & I2 & _).
  pose proof (iv_12 _ _ _ I1 I0 I2) as I3. unfold HEADER in L.
  set (n := m_len m) in *. set (d := splice (m_data m) (4 + (n - 4) + 16) iv) in *.
  destruct (CL (e_key (at_ t i)) iv (window 4 (n - 4) d)) as (C1 & C2).
  pose proof (D (e_key (at_ t i)) iv (window 4 (n - 4) d)) as DD.
  set (ct := fst (enc (e_key (at_ t i)) iv (window 4 (n - 4) d))) in *.
  set (tag := snd (enc (e_key (at_ t i)) iv (window 4 (n - 4) d))) in *.
  assert (Ld: length d = length (m_data m)) by (apply length_splice; lia).
  assert (Lct: length ct = n - 4) by (rewrite C1, length_window; lia).
  assert (Lw: length (splice d 4 ct) = length d) by (apply length_splice; lia).
  assert (Lx: length (splice (splice d 4 ct) (4 + (n - 4)) tag) = length d) by (rewrite length_splice; lia).
  assert (EML: m_len m' = n + 28) by (rewrite E; reflexivity).
  assert (EMD: m_data m' = set_crypt (splice (splice d 4 ct) (4 + (n - 4)) tag)) by (rewrite E; reflexivity).
  rewrite EML in *.
  assert (NB: forall q, q < n + 28 -> nth q (m_data mb) 0%N = nth q (m_data m') 0%N).
  { intros q Q. rewrite <- (nth_firstn (m_data mb) (n + 28)), <- (nth_firstn (m_data m') (n + 28)) by auto. now rewrite ME. }
  assert (N3: forall q, 4 <= q -> nth q (m_data m') 0%N = nth q (splice (splice d 4 ct) (4 + (n - 4)) tag) 0%N).
  { intros q Q. rewrite EMD. apply nth_set_crypt. lia. }
  assert (Wct: window 4 (n - 4) (m_data mb) = ct).
  { apply nth_ext_N; [rewrite length_window; lia|]. intros q Q. rewrite length_window in Q.
    rewrite nth_window by lia. rewrite NB, N3 by lia. rewrite splice_out by lia.
    apply nth_splice_in; lia. }
  assert (Wtag: window (4 + (n - 4)) 16 (m_data mb) = tag).
  { apply nth_ext_N; [rewrite length_window; lia|]. intros q Q. rewrite length_window in Q.
    rewrite nth_window by lia. rewrite NB, N3 by lia. apply nth_splice_in; lia. }
  assert (Wiv: window (4 + (n - 4) + 16) 12 (m_data mb) = iv).
  { apply nth_ext_N; [rewrite length_window; lia|]. intros q Q. rewrite length_window in Q.
    rewrite nth_window by lia. rewrite NB, N3 by lia. rewrite splice_out by lia. rewrite splice_out by lia.
    apply nth_splice_in; lia. }
  unfold decrypt. unfold TRAILER, HEADER, HEADER_NO_ID, TAG_LEN, IV_LEN.
  destruct (Nat.leb_spec (m_len mb) (28 + 5)); [lia|].
  assert (((m_max mb <? m_len mb - 28) || (m_max mb <=? 5 + 28)) = false) as -> by lia.
  unfold key_entry. rewrite GB, UB. cbv zeta.
  replace (m_len mb - 4 - 28) with (n - 4) by lia. rewrite Wct, Wtag, Wiv, KB, DD.
  eexists. split; [reflexivity|]. cbn [m_len m_data]. split; [lia|].
  assert (Wp: window 4 (n - 4) d = window 4 (n - 4) (m_data m)) by (apply window_splice_away; lia).
  rewrite Wp.
  assert (Lp: length (window 4 (n - 4) (m_data m)) = n - 4) by (rewrite length_window; lia).
  apply nth_ext_N.
  - rewrite length_set_crypt, !firstn_length, length_splice by (rewrite ?Lp; lia). lia.
  - intros q Q. rewrite firstn_length, length_splice in Q by (rewrite ?Lp; lia). rewrite nth_firstn by lia.
    assert (C: q < 4 \/ 4 <= q) by lia. destruct C as [C|C].
    + rewrite splice_out by (rewrite ?Lp; lia). rewrite NB by lia. rewrite EMD.
      assert (OUT: forall z, z < 4 -> nth z (splice (splice d 4 ct) (4 + (n - 4)) tag) 0%N = nth z (m_data m) 0%N).
      { intros z Z. rewrite splice_out by lia. rewrite splice_out by lia. unfold d. rewrite splice_out by lia. reflexivity. }
      assert (Q3: q = 3 \/ q <> 3) by lia. destruct Q3 as [->|Q3].
      * unfold set_crypt. rewrite !nth_upd_eq by (rewrite ?firstn_length; lia). rewrite OUT by lia. rewrite nth_firstn by lia. reflexivity.
      * rewrite !nth_set_crypt by auto. rewrite OUT by auto. now rewrite nth_firstn by lia.
    + rewrite nth_set_crypt by lia. rewrite nth_firstn by lia. replace q with (4 + (q - 4)) by lia.
      rewrite nth_splice_in by (rewrite Lp; lia). rewrite nth_window by lia. reflexivity.
Qed.

(** Nothing outside the message and its trailer is written. *)
Lemma encrypt_bounds : forall t m o t' m' st u, cipher_lengths -> ivs_ok t ->
  encrypt enc t m o = (t', m', st, u) -> m_max m <= length (m_data m) ->
  length (m_data m') = length (m_data m) /\ m_max m' = m_max m /\ m_eid m' = m_eid m /\
  (m_len m' = m_len m \/ (m_len m' = m_len m + 28 /\ m_len m' <= m_max m)) /\
  (forall j, j < 3 \/ m_len m + 28 <= j -> nth j (m_data m') 0%N = nth j (m_data m) 0%N) /\
  (m_max m < m_len m + 28 -> m' = m) /\ (u = None -> m' = m).
Proof. clear dec hmac kdf.
  intros t m o t' m' st u CL IV H LD.
  assert (SAME: m' = m -> length (m_data m') = length (m_data m) /\ m_max m' = m_max m /\ m_eid m' = m_eid m /\
    (m_len m' = m_len m \/ (m_len m' = m_len m + 28 /\ m_len m' <= m_max m)) /\
    (forall j, j < 3 \/ m_len m + 28 <= j -> nth j (m_data m') 0%N = nth j (m_data m) 0%N) /\
    (m_max m < m_len m + 28 -> m' = m) /\ (u = None -> m' = m)) by (intros ->; repeat (split; [auto; fail|]); auto).
  unfold encrypt in H. destruct (Nat.ltb_spec (m_len m) HEADER) as [|G1]; [apply SAME; congruence|].
  destruct (Nat.ltb_spec (m_max m) (m_len m + TRAILER)) as [|G2]; [apply SAME; congruence|].
  destruct (key_entry t (m_eid m)) as [i|e] eqn:K; [|apply SAME; congruence].
  apply key_entry_inl in K. destruct K as (K1 & K2). cbv zeta in H.
  destruct (get_session_some _ _ _ K1) as (Li & _ & Ui). destruct (IV i Li Ui) as (I1 & I2 & _).
  unfold HEADER, TRAILER in *.
  assert (CASE: forall iv, length iv = 12 ->
    let n := m_len m in let d := splice (m_data m) (4 + (n - 4) + 16) iv in
    let c := enc (e_key (at_ t i)) iv (window 4 (n - 4) d) in
    let d' := splice (splice d 4 (fst c)) (4 + (n - 4)) (snd c) in
    length d' = length (m_data m) /\ forall j, j < 4 \/ m_len m + 28 <= j -> nth j d' 0%N = nth j (m_data m) 0%N).
  { intros iv I3 n d c d'. destruct (CL (e_key (at_ t i)) iv (window 4 (n - 4) d)) as (C1 & C2). fold c in C1, C2.
    assert (Ld: length d = length (m_data m)) by (apply length_splice; lia).
    assert (Lct: length (fst c) = n - 4) by (rewrite C1, length_window; lia).
    assert (Lw: length (splice d 4 (fst c)) = length d) by (apply length_splice; lia).
    split; [unfold d'; rewrite length_splice; lia|]. intros j J. unfold d'.
    rewrite splice_out by lia. rewrite splice_out by lia. unfold d. now rewrite splice_out by lia. }
  destruct o; [|apply SAME; congruence|].
  - destruct (increment_byte_array (e_iv (at_ t i)) false) as [iv []] eqn:I0; try (apply SAME; congruence).
    pose proof (CASE iv (iv_12 _ _ _ I1 I0 I2)) as CC. cbv zeta in CC. unfold HEADER_NO_ID, TAG_LEN in H.
    destruct (enc (e_key (at_ t i)) iv (window 4 (m_len m - 4) (splice (m_data m) (4 + (m_len m - 4) + 16) iv))) as [ct tag] eqn:E.
    cbn [fst snd] in CC. destruct CC as (CC1 & CC2). injection H as <- <- <- <-. cbn [m_data m_max m_eid m_len].
    rewrite length_set_crypt. do 3 (split; [auto; fail|]). split; [right; lia|]. split; [|split; [lia|discriminate]].
    intros j J. rewrite nth_set_crypt by lia. apply CC2. lia.
  - destruct (increment_byte_array (e_iv (at_ t i)) false) as [iv []] eqn:I0; try (apply SAME; congruence).
    pose proof (CASE iv (iv_12 _ _ _ I1 I0 I2)) as CC. cbv zeta in CC. unfold HEADER_NO_ID, TAG_LEN in H.
    destruct (enc (e_key (at_ t i)) iv (window 4 (m_len m - 4) (splice (m_data m) (4 + (m_len m - 4) + 16) iv))) as [ct tag] eqn:E.
    cbn [fst snd] in CC. destruct CC as (CC1 & CC2). injection H as <- <- <- <-. cbn [m_data m_max m_eid m_len].
    do 3 (split; [auto; fail|]). split; [left; lia|]. split; [|split; [lia|discriminate]].
    intros j J. apply CC2. lia.
Qed.

(** A session that can be used is only reset on request with the right HMAC, or without one. *)
Lemma check_hmac_ok : forall key data mac fault, length (hmac key data) = 32 -> bytes_ok (hmac key data) -> bytes_ok mac ->
  check_hmac hmac key data mac fault = SmOk -> mac = hmac key data /\ fault = false.
Proof. clear enc dec kdf.
  intros key data mac fault L B1 B2 H. unfold check_hmac in H.
  destruct (Nat.eqb_spec (length mac) 32) as [E|]; [|discriminate]. cbn [negb] in H.
  destruct fault; [discriminate|]. split; [|reflexivity].
  assert (Q: buffer_compare (N.ones 8) (Some (hmac key data)) (Some mac) 32 = true)
    by (change (N.ones 8) with 0xff%N; destruct (buffer_compare 0xff (Some (hmac key data)) (Some mac) 32); [reflexivity|discriminate]).
  apply buffer_compare_correct in Q; [|exact B1|exact B2|lia|lia].
  rewrite !firstn_all2 in Q by lia. auto.
Qed.

(** The key exchange response. *)
Lemma sub_sz_small : forall a b, (b <= a)%N -> (a < 2 ^ 32)%N -> sub_sz a b = (a - b)%N.
Proof. clear enc dec hmac kdf.
  intros a b H L. unfold sub_sz. rewrite (N.mod_small b) by lia.
  replace (a + 2 ^ 32 - b)%N with ((a - b) + 1 * 2 ^ 32)%N by lia. rewrite N.mod_add by discriminate. apply N.mod_small. lia.
Qed.

Lemma establish_bounds : forall t m v t' m' st n, (N.of_nat (m_max m) < 2 ^ 32)%N ->
  (forall der, x_der v = Some der -> m_max m <> RSP + length der + 1) ->
  (forall der sg, x_der v = Some der -> x_sig v = Some sg ->
     m_max m <> RSP + length der + 2 + length sg /\ m_max m <> RSP + length der + 2 + length sg + 1) ->
  RSP <= m_max m ->
  establish hmac kdf t m v = (t', m', st, n) -> n <= m_max m.
Proof. clear enc dec.
  intros t m v t' m' st n M32 HD HS HR H. unfold establish in H. cbv zeta in H. unfold RSP in *.
  repeat match type of H with
  | context [match get_session t (m_eid m) with _ => _ end] => destruct (get_session t (m_eid m)) as [i|] eqn:G
  | context [match e_state ?x with _ => _ end] => destruct (e_state x) eqn:ST
  | (if (m_max m <=? 6) then _ else _) = _ => destruct (Nat.leb_spec (m_max m) 6)
  | (if (max_key m <=? ?x)%N then _ else _) = _ => destruct (N.leb_spec (max_key m) x) as [?|MK]
  | (if (max_sig m ?y <? ?x)%N then _ else _) = _ => destruct (N.ltb_spec (max_sig m y) x) as [?|MS]
  | (if _ || (max_hmac m ?y ?z <? ?x)%N then _ else _) = _ => destruct (N.ltb_spec (max_hmac m y z) x) as [?|MH]; [rewrite orb_true_r in H|rewrite orb_false_r in H]
  | (if ?b then _ else _) = _ => destruct b
  | context [match x_der v with _ => _ end] => destruct (x_der v) as [der|] eqn:XD; [specialize (HD der eq_refl)|]
  | context [match x_sig v with _ => _ end] => destruct (x_sig v) as [sg|] eqn:XS; [specialize (HS der sg eq_refl eq_refl)|]
  | context [match x_secret v with _ => _ end] => destruct (x_secret v)
  end; assert (n = snd (t', m', st, n)) as N0 by reflexivity; rewrite <- H in N0; cbn [snd] in N0; subst n; try lia.
  all: unfold max_key in *; rewrite sub_sz_small in MK by (unfold RSP; lia); unfold RSP in MK.
  all: try lia.
  all: unfold max_sig, max_key in MS; rewrite (sub_sz_small (N.of_nat (m_max m))) in MS by (unfold RSP; lia); unfold RSP in MS.
  all: rewrite !sub_sz_small in MS by (rewrite ?sub_sz_small; lia).
  all: try lia.
  unfold max_hmac, max_sig, max_key in MH. rewrite (sub_sz_small (N.of_nat (m_max m))) in MH by (unfold RSP; lia). unfold RSP in MH.
  rewrite (sub_sz_small (N.of_nat (m_max m) - N.of_nat 9)) in MH by lia. rewrite !(sub_sz_small (N.of_nat (m_max m) - N.of_nat 9 - _)) in MH by lia.
  rewrite (sub_sz_small (_ - _) 2) in MH by lia. rewrite sub_sz_small in MH by lia. lia.
Qed.
End Message.

Section Establish.
Variable hmac : list N -> list N -> list N.
Variable kdf : list N -> list N -> list N -> list N.

Lemma establish_ok : forall t m v t' m' n, establish hmac kdf t m v = (t', m', SmOk, n) ->
  exists i der sg secret, get_session t (m_eid m) = Some i /\ x_der v = Some der /\ x_sig v = Some sg /\ x_secret v = Some secret /\
   e_state (at_ t i) = Setup /\
   let e := at_ t i in
   let hk := kdf secret (e_cnonce e) (e_dnonce e) in
   t' = upd t i (Entry (kdf secret (e_dnonce e) (e_cnonce e)) hk (e_dnonce e) (e_cnonce e) (e_eid e) Established (e_iv e)) /\
   n = RSP + length der + 2 + length sg + 2 + 32 /\
   m' = Msg (splice (splice (splice (splice (splice (splice (splice (m_data m) 6 [0%N]) RSP der) 7 (le16 (N.of_nat (length der))))
          (RSP + length der + 2) sg) (RSP + length der) (le16 (N.of_nat (length sg))))
          (RSP + length der + 2 + length sg + 2) (hmac hk (x_cert v))) (RSP + length der + 2 + length sg) (le16 32))
          n (m_max m) (m_eid m).
Proof.
  intros t m v t' m' n H. unfold establish in H. cbv zeta in H.
  destruct (m_len m <=? REQ); [discriminate|]. destruct (m_max m <=? 6); [discriminate|].
  destruct (get_session t (m_eid m)) as [i|] eqn:G; [|discriminate].
  destruct (e_state (at_ t i)) eqn:ST; try discriminate.
  destruct (negb (nth 6 (m_data m) 0 =? 0)%N); [discriminate|]. destruct (negb (x_pub v)); [discriminate|].
  destruct (negb (x_gen v)); [discriminate|]. destruct (x_der v) as [der|] eqn:XD; [|discriminate].
  destruct (negb (x_digest v)); [discriminate|]. destruct (max_key m <=? N.of_nat (length der))%N; [discriminate|].
  destruct (negb (x_keys v)); [discriminate|]. destruct (x_sig v) as [sg|] eqn:XS; [|discriminate].
  destruct (max_sig m (length der) <? N.of_nat (length sg))%N; [discriminate|].
  destruct (negb (x_secret_len v)); [discriminate|]. destruct (negb (x_alloc v)); [discriminate|].
  destruct (x_secret v) as [secret|] eqn:XE; [|discriminate].
  destruct (x_kdf1 v); [cbn [negb] in H|discriminate]. destruct (x_kdf2 v); [cbn [negb] in H|discriminate].
  destruct (negb (x_hmac v) || (max_hmac m (length der) (length sg) <? 32)%N); [discriminate|].
  exists i, der, sg, secret. cbv zeta. do 5 (split; [auto; fail|]).
  assert (t' = fst (fst (fst (t', m', SmOk, n)))) as T by reflexivity. assert (m' = snd (fst (fst (t', m', SmOk, n)))) as M by reflexivity.
  assert (n = snd (t', m', SmOk, n)) as N0 by reflexivity. rewrite <- H in T, M, N0. cbn [fst snd] in T, M, N0.
  unfold run_kdf in T, M. cbn [set_e_key set_e_hmac set_e_state e_key e_hmac e_dnonce e_cnonce e_eid e_state e_iv] in T, M.
  rewrite N0. auto.
Qed.

Lemma length_le16' : forall x, length (le16 x) = 2. Proof. reflexivity. Qed.

(** A list that agrees with a list of pieces. *)
Lemma window_pieces : forall (d a b : list N) o, window o (length a) d = a -> window (o + length a) (length b) d = b ->
  window o (length (a ++ b)) d = a ++ b.
Proof. intros d a b o A B. rewrite app_length, window_split, A, B. reflexivity. Qed.

Lemma establish_layout : forall t m v t' m' n, (forall k d, length (hmac k d) = 32) ->
  establish hmac kdf t m v = (t', m', SmOk, n) -> n <= length (m_data m) ->
  exists i der sg, get_session t (m_eid m) = Some i /\ x_der v = Some der /\ x_sig v = Some sg /\
   let body := [0%N] ++ le16 (N.of_nat (length der)) ++ der ++ le16 (N.of_nat (length sg)) ++ sg ++ le16 32 ++ hmac (e_hmac (at_ t' i)) (x_cert v) in
   m_len m' = 6 + length body /\ window 6 (length body) (m_data m') = body /\ length (m_data m') = length (m_data m) /\
   (forall j, j < 6 \/ m_len m' <= j -> nth j (m_data m') 0%N = nth j (m_data m) 0%N).
Proof.
  intros t m v t' m' n HL H LN. destruct (establish_ok _ _ _ _ _ _ H) as (i & der & sg & secret & G & XD & XS & XE & ST & T & N0 & M).
  cbv zeta in T, M. exists i, der, sg. do 3 (split; [auto; fail|]). cbv zeta.
  assert (HK: e_hmac (at_ t' i) = kdf secret (e_cnonce (at_ t i)) (e_dnonce (at_ t i))).
  { rewrite T, at_upd_eq; [reflexivity|]. apply get_session_some in G. destruct G as (L & _). exact L. }
  rewrite HK. set (mac := hmac (kdf secret (e_cnonce (at_ t i)) (e_dnonce (at_ t i))) (x_cert v)) in *.
  assert (LM: length mac = 32) by apply HL. unfold RSP in *.
  assert (EML: m_len m' = n) by (rewrite M; reflexivity). assert (EMD := f_equal m_data M). cbn [m_data] in EMD.
  set (d := m_data m) in *. set (D := length der) in *. set (S := length sg) in *.
  set (d1 := splice d 6 [0%N]) in *. set (d2 := splice d1 9 der) in *. set (d3 := splice d2 7 (le16 (N.of_nat D))) in *.
  set (d4 := splice d3 (9 + D + 2) sg) in *. set (d5 := splice d4 (9 + D) (le16 (N.of_nat S))) in *.
  set (d6 := splice d5 (9 + D + 2 + S + 2) mac) in *.
  assert (L1: length d1 = length d) by (apply length_splice; cbn; lia).
  assert (L2: length d2 = length d) by (unfold d2; rewrite length_splice; lia).
  assert (L3: length d3 = length d) by (unfold d3; rewrite length_splice; rewrite ?length_le16'; lia).
  assert (L4: length d4 = length d) by (unfold d4; rewrite length_splice; lia).
  assert (L5: length d5 = length d) by (unfold d5; rewrite length_splice; rewrite ?length_le16'; lia).
  assert (L6: length d6 = length d) by (unfold d6; rewrite length_splice; lia).
  assert (L7: length (m_data m') = length d) by (rewrite EMD, length_splice; rewrite ?length_le16'; lia).
  assert (W1: window 6 1 (m_data m') = [0%N]).
  { rewrite EMD. unfold d6, d5, d4, d3, d2. 
    repeat (rewrite window_splice_away by (fold d2 d3 d4 d5 d6; rewrite ?length_le16', ?L1, ?L2, ?L3, ?L4, ?L5, ?L6; fold D S; lia)).
    unfold d1. apply (window_splice d 6 [0%N]). cbn. lia. }
  assert (W2: window 7 2 (m_data m') = le16 (N.of_nat D)).
  { rewrite EMD. unfold d6, d5, d4.
    repeat (rewrite window_splice_away by (fold d4 d5 d6; rewrite ?length_le16', ?L1, ?L2, ?L3, ?L4, ?L5, ?L6; fold D S; lia)).
    unfold d3. apply (window_splice d2 7 (le16 (N.of_nat D))). rewrite length_le16'. lia. }
  assert (W3: window 9 D (m_data m') = der).
  { rewrite EMD. unfold d6, d5, d4, d3.
    repeat (rewrite window_splice_away by (fold d3 d4 d5 d6; rewrite ?length_le16', ?L1, ?L2, ?L3, ?L4, ?L5, ?L6; fold D S; lia)).
    unfold d2. apply (window_splice d1 9 der). lia. }
  assert (W4: window (9 + D) 2 (m_data m') = le16 (N.of_nat S)).
  { rewrite EMD. unfold d6.
    repeat (rewrite window_splice_away by (fold d6; rewrite ?length_le16', ?L1, ?L2, ?L3, ?L4, ?L5, ?L6; fold D S; lia)).
    unfold d5. apply (window_splice d4 (9 + D) (le16 (N.of_nat S))). rewrite length_le16'. lia. }
  assert (W5: window (9 + D + 2) S (m_data m') = sg).
  { rewrite EMD. unfold d6, d5.
    repeat (rewrite window_splice_away by (fold d5 d6; rewrite ?length_le16', ?L1, ?L2, ?L3, ?L4, ?L5, ?L6; fold D S; lia)).
    unfold d4. apply (window_splice d3 (9 + D + 2) sg). lia. }
  assert (W6: window (9 + D + 2 + S) 2 (m_data m') = le16 32).
  { rewrite EMD. apply (window_splice d6 (9 + D + 2 + S) (le16 32)). rewrite length_le16'. lia. }
  assert (W7: window (9 + D + 2 + S + 2) 32 (m_data m') = mac).
  { rewrite EMD. rewrite window_splice_away by (rewrite ?length_le16', ?L6; lia).
    unfold d6. rewrite <- LM at 1. apply (window_splice d5 _ mac). lia. }
  split; [|split; [|split]].
  - rewrite EML, !app_length, !length_le16', LM. cbn [length]. fold D S. lia.
  - apply window_pieces; [exact W1|]. apply window_pieces; [exact W2|].
    apply window_pieces; [exact W3|]. rewrite length_le16'. change (length [0%N]) with 1. 
    apply window_pieces; [exact W4|]. rewrite length_le16'. apply window_pieces; [exact W5|].
    apply window_pieces; [exact W6|]. rewrite length_le16', LM. exact W7.
  - exact L7.
  - intros j J. rewrite EML in J. rewrite EMD.
    rewrite splice_out by (rewrite ?length_le16', ?L6; lia). unfold d6. rewrite splice_out by (rewrite ?L5; lia).
    unfold d5. rewrite splice_out by (rewrite ?length_le16', ?L4; lia). unfold d4. rewrite splice_out by (rewrite ?L3; fold S; lia).
    unfold d3. rewrite splice_out by (rewrite ?length_le16', ?L2; lia). unfold d2. rewrite splice_out by (rewrite ?L1; fold D; lia).
    unfold d1. rewrite splice_out by (cbn; lia). reflexivity.
Qed.
End Establish.

(** A call touches only the entry of its own peer. *)
Section Isolation.
Variable enc : list N -> list N -> list N -> list N * list N.
Variable dec : list N -> list N -> list N -> list N -> option (list N).
Variable hmac : list N -> list N -> list N.
Variable kdf : list N -> list N -> list N -> list N.
Variable pairing : list N.
Variable store : bool.

Lemma step_local : forall t o t' ev, step enc dec hmac kdf pairing store t o = (t', ev) ->
  t' = t \/ exists i e', t' = upd t i e' /\ (get_session t (op_eid o) = Some i \/ e_state (at_ t i) = Unused).
Proof.
  intros t o t' ev H. destruct o as [eid dn cn|m v|m o|m f|eid mac f|eid mac v|eid nonce room f]; cbn [step op_eid] in *.
  - unfold add_session in H. destruct (get_session t eid) as [i|] eqn:G; [injection H as <- _; eauto 6|].
    destruct (get_free t) as [i|] eqn:F; [|injection H as <- _; auto]. apply get_free_some in F. destruct F as (_ & F).
    injection H as <- _. eauto 6.
  - destruct (establish hmac kdf t m v) as [[[t1 m1] st] n] eqn:E. injection H as <- _.
    destruct (establish_change _ _ _ _ _ _ _ _ _ E) as [(_ & ->)|(i & e' & G & _ & _ & _ & -> & _)]; eauto 6.
  - destruct (encrypt enc t m o) as [[[t1 m1] st] u] eqn:E. injection H as <- _. unfold encrypt in E.
    destruct (m_len m <? HEADER); [left; congruence|]. destruct (m_max m <? m_len m + TRAILER); [left; congruence|].
    destruct (key_entry t (m_eid m)) as [i|x] eqn:K; [|left; congruence]. apply key_entry_inl in K. destruct K as (K & _).
    destruct o; [|left; congruence|]; destruct (increment_byte_array (e_iv (at_ t i)) false) as [iv []];
      cbv zeta in E; try (destruct (enc _ _ _) as [ct tag]); injection E as <- _ _ _; eauto 6.
  - destruct (decrypt dec t m f) as [m1 st]. injection H as <- _. auto.
  - unfold reset_session in H. destruct (get_session t eid) as [i|] eqn:G; [|injection H as <- _; auto]. cbv zeta in H.
    destruct (match mac with Some h => if usable (e_state (at_ t i)) then check_hmac hmac (e_hmac (at_ t i)) (e_key (at_ t i)) h f else SmOk | None => SmOk end);
      injection H as <- _; eauto 6.
  - destruct (setup_paired hmac kdf pairing store t eid mac v) as [[t1 st] sv] eqn:E.
    assert (t' = t1) by congruence. subst t1.
    destruct (pair_change _ _ _ _ _ _ _ _ _ _ _ E) as [(_ & ->)|(i & k & s & G & _ & _ & ->)]; eauto 6.
  - destruct (session_sync hmac t eid nonce room f). injection H as <- _. auto.
Qed.

Lemma step_isolated : forall t o t' ev x i, step enc dec hmac kdf pairing store t o = (t', ev) -> op_eid o <> x ->
  session_at t i x -> at_ t' i = at_ t i /\ session_at t' i x.
Proof.
  intros t o t' ev x i H Ne A. destruct (step_local _ _ _ _ H) as [->|(j & e' & -> & C)]; [auto|].
  assert (j <> i).
  { intros ->. destruct C as [C|C].
    - apply get_session_some in C. apply Ne. eapply session_at_eid; eauto.
    - destruct A as (_ & _ & A). congruence. }
  rewrite session_at_upd_neq, at_upd_neq by auto. auto.
Qed.
End Isolation.
