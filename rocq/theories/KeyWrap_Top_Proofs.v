(** Proofs about AES key wrap: the entry points. *)
From Coq Require Import List NArith Lia Bool Arith ZifyBool ZifyNat ZifyN.
From Verif Require Import Base ByteMath_Model BufferUtil_Model BufferUtil_Proofs
  KeyWrap_Model KeyWrap_Spec FlashStore_Layout_Proofs KeyWrap_Proofs.
Import ListNotations.
Local Open Scope nat_scope.

Lemma bytes_ok_KW_IV : bytes_ok KW_IV.
Proof. repeat constructor. Qed.

Lemma compare_bytes : forall a b, bytes_ok a -> bytes_ok b -> length a = length b ->
  buffer_compare (N.ones 8) (Some a) (Some b) (length b) = true <-> a = b.
Proof.
  intros a b Ha Hb L. rewrite (buffer_compare_correct 8); auto; try lia.
  rewrite firstn_all, <- L, firstn_all. reflexivity.
Qed.

Lemma compare_head : forall a b n, bytes_ok a -> bytes_ok b -> n = length b -> n <= length a ->
  buffer_compare (N.ones 8) (Some a) (Some b) n = true <-> firstn n a = b.
Proof.
  intros a b n Ha Hb L L2. rewrite (buffer_compare_correct 8); auto; try lia. subst n.
  now rewrite firstn_all.
Qed.

Section Cipher.
Variables enc dec : list N -> option (list N).
Hypothesis BC : block_cipher enc dec.

Lemma splice_parts : forall (out data : list N), 8 + length data <= length out ->
  splice out 8 data = firstn 8 out ++ data ++ skipn (8 + length data) out.
Proof. reflexivity. Qed.

Lemma kw_wrap_spec : forall data out, bytes_ok data -> length data mod 8 = 0 -> 16 <= length data ->
  length data + 8 <= length out -> (N.of_nat (length data) < 2 ^ 32)%N ->
  kw_wrap enc data out =
  match rfc_wrap enc KW_IV data with
  | Some (c0, c) => (KwOk, c0 ++ c ++ skipn (length data + 8) out)
  | None => (KwEngine, zeros (length out))
  end.
Proof.
  intros data out H1 H2 H3 H4 H5. unfold kw_wrap. unfold BLOCK at 1 2 3.
  rewrite H2. cbn [negb Nat.eqb]. destruct (Nat.ltb_spec (length data) (8 * 2)); [lia|].
  destruct (Nat.ltb_spec (length out) (length data + 8)); [lia|]. cbn zeta.
  unfold BLOCK. unfold splice at 1.
  rewrite (data_wrap_spec enc dec BC KW_IV) by (auto using bytes_ok_KW_IV; rewrite firstn_length; lia).
  rewrite (Nat.add_comm 8). destruct (rfc_wrap enc KW_IV data) as [[c0 c]|]; reflexivity.
Qed.

Lemma kw_unwrap_spec : forall c0 c d, length c0 = 8 -> bytes_ok c0 -> bytes_ok c -> length c mod 8 = 0 ->
  16 <= length c -> length c <= length d -> (N.of_nat (length c) < 2 ^ 32)%N ->
  kw_unwrap dec (c0 ++ c) d =
  match rfc_unwrap dec c0 c with
  | None => (KwEngine, zeros (length d), length d)
  | Some (a, p) =>
    if list_eq_dec N.eq_dec a KW_IV then (KwOk, p ++ skipn (length c) d, length c)
    else (KwIntegrity, zeros (length d), length d)
  end.
Proof.
  intros c0 c d H1 H2 H3 H4 H5 H6 H7. unfold kw_unwrap. rewrite (data_unwrap_spec enc dec BC) by auto.
  rewrite app_length, H1. unfold BLOCK.
  replace ((8 + length c) mod 8) with 0.
  2:{ pose proof (Nat.div_mod (length c) 8 ltac:(lia)). symmetry. apply Nat.mod_divide; [lia|].
      exists (1 + length c / 8). lia. }
  cbn [negb Nat.eqb]. destruct (Nat.ltb_spec (8 + length c) (8 * 3)); [lia|].
  replace (8 + length c - 8) with (length c) by lia.
  destruct (Nat.ltb_spec (length d) (length c)); [lia|].
  destruct (rfc_unwrap dec c0 c) as [[a p]|] eqn:E; auto.
  destruct (rfc_unwrap_inv enc dec BC c0 c a p H1 H2 H3 H4 E) as (A1 & A2 & _).
  pose proof (compare_bytes a KW_IV A2 bytes_ok_KW_IV A1) as CB. change (length KW_IV) with 8 in CB.
  destruct (buffer_compare (N.ones 8) (Some a) (Some KW_IV) 8), (list_eq_dec N.eq_dec a KW_IV); auto.
  - exfalso. intuition.
  - exfalso. assert (false = true) by intuition. discriminate.
Qed.

(** * With padding *)
Definition raw_wrap (iv p : list N) : option (list N) :=
  if length p =? 8 then enc (iv ++ p)
  else match rfc_wrap enc iv p with Some (a, r) => Some (a ++ r) | None => None end.

Definition raw_unwrap (w : list N) : option (list N * list N) :=
  if length w =? 16 then match dec w with Some b => Some (firstn 8 b, skipn 8 b) | None => None end
  else rfc_unwrap dec (firstn 8 w) (skipn 8 w).

Lemma raw_wrap_inv : forall iv p w, length iv = 8 -> bytes_ok iv -> bytes_ok p -> length p mod 8 = 0 -> 8 <= length p ->
  raw_wrap iv p = Some w -> length w = 8 + length p /\ bytes_ok w /\ raw_unwrap w = Some (iv, p).
Proof.
  intros iv p w H1 H2 H3 H4 H5 H. unfold raw_wrap, raw_unwrap in *. destruct (Nat.eqb_spec (length p) 8) as [E|E].
  - assert (L: length (iv ++ p) = 16) by (rewrite app_length; lia).
    assert (B: bytes_ok (iv ++ p)) by (apply bytes_ok_app; auto).
    destruct (bc_enc _ _ BC _ _ L B H) as (W1 & W2 & W3). splits; auto; try lia. rewrite W1, W3. cbn [Nat.eqb].
    destruct (app_split iv p 8 H1) as (F1 & F2). now rewrite F1, F2.
  - destruct (rfc_wrap enc iv p) as [[a r]|] eqn:EW; [|discriminate]. injection H as <-.
    destruct (rfc_wrap_inv enc dec BC iv p a r H1 H2 H3 H4 EW) as (A1 & A2 & A3 & A4 & A5).
    rewrite app_length. splits; auto; try lia; [apply bytes_ok_app; auto|].
    destruct (Nat.eqb_spec (length a + length r) 16); [lia|].
    destruct (app_split a r 8 A1) as (F1 & F2). now rewrite F1, F2.
Qed.

Lemma raw_unwrap_inv : forall w iv p, bytes_ok w -> length w mod 8 = 0 -> 16 <= length w -> raw_unwrap w = Some (iv, p) ->
  length iv = 8 /\ bytes_ok iv /\ bytes_ok p /\ length w = 8 + length p /\ raw_wrap iv p = Some w.
Proof.
  intros w iv p H1 H2 H3 H. unfold raw_wrap, raw_unwrap in *. destruct (Nat.eqb_spec (length w) 16) as [E|E].
  - destruct (dec w) as [b|] eqn:ED; [|discriminate]. assert (iv = firstn 8 b) by congruence. assert (p = skipn 8 b) by congruence. clear H. subst iv p.
    destruct (bc_dec _ _ BC _ _ E H1 ED) as (B1 & B2 & B3). destruct (halves b B1) as (L1 & L2).
    rewrite L1, L2. splits; auto using bytes_ok_firstn, bytes_ok_skipn. rewrite Nat.eqb_refl, firstn_skipn. exact B3.
  - assert (L1: length (firstn 8 w) = 8) by (rewrite firstn_length; lia).
    assert (L2: length (skipn 8 w) = length w - 8) by (rewrite skipn_length; lia).
    assert (M: length (skipn 8 w) mod 8 = 0).
    { rewrite L2. pose proof (Nat.div_mod (length w) 8 ltac:(lia)). apply Nat.mod_divide; [lia|]. exists (length w / 8 - 1). lia. }
    destruct (rfc_unwrap_inv enc dec BC _ _ _ _ L1 (bytes_ok_firstn 8 w H1) (bytes_ok_skipn 8 w H1) M H) as (A1 & A2 & A3 & A4 & A5).
    splits; auto; [lia|]. destruct (Nat.eqb_spec (length p) 8); [lia|]. rewrite A5. now rewrite firstn_skipn.
Qed.

Lemma aligned_spec : forall n, aligned n = n + (8 - n mod 8) mod 8.
Proof.
  intros n. unfold aligned, BLOCK. pose proof (Nat.div_mod n 8 ltac:(lia)) as D.
  pose proof (Nat.mod_upper_bound n 8 ltac:(lia)) as U. set (q := n / 8) in *. set (r := n mod 8) in *. clearbody q r.
  assert (C: r = 0 \/ 1 <= r) by lia. destruct C as [C|C].
  - replace (n + (8 - 1)) with (7 + q * 8) by lia. rewrite Nat.div_add by lia. rewrite C. change (7 / 8) with 0. change ((8 - 0) mod 8) with 0. lia.
  - replace (n + (8 - 1)) with ((r - 1) + (q + 1) * 8) by lia. rewrite Nat.div_add by lia.
    rewrite (Nat.div_small (r - 1)) by lia. rewrite (Nat.mod_small (8 - r)) by lia. lia.
Qed.

Lemma length_padded : forall p, length (padded p) = aligned (length p).
Proof. intros. rewrite aligned_spec. unfold padded. now rewrite app_length, repeat_length. Qed.

Lemma aligned_bounds : forall n, n <= aligned n < n + 8 /\ aligned n mod 8 = 0.
Proof.
  intros n. split.
  - rewrite aligned_spec. pose proof (Nat.mod_upper_bound (8 - n mod 8) 8 ltac:(lia)). lia.
  - unfold aligned, BLOCK. apply Nat.mod_mul. lia.
Qed.

Lemma aligned_le : forall n, (N.of_nat n <= KWP_MAX)%N -> (N.of_nat (aligned n) < 2 ^ 32)%N.
Proof.
  intros n H. destruct (aligned_bounds n) as (B & M). unfold KWP_MAX in H. 
  pose proof (Nat.div_mod (aligned n) 8 ltac:(lia)) as D. rewrite M in D. set (q := aligned n / 8) in *. lia.
Qed.

Lemma bytes_ok_repeat0 : forall n, bytes_ok (repeat 0%N n).
Proof. intros. apply Forall_forall. intros x Hx. apply repeat_spec in Hx. subst. reflexivity. Qed.

Lemma bytes_ok_padded : forall p, bytes_ok p -> bytes_ok (padded p).
Proof. intros. apply bytes_ok_app. split; auto. apply bytes_ok_repeat0. Qed.

Lemma alternative_iv_ok : forall p, length (alternative_iv p) = 8 /\ bytes_ok (alternative_iv p).
Proof.
  intros p. unfold alternative_iv. rewrite app_length, length_be_bytes. split; auto.
  apply bytes_ok_app. split; [repeat constructor|apply bytes_ok_be_bytes].
Qed.

Lemma kwp_wrap_spec : forall data out, bytes_ok data -> data <> [] -> (N.of_nat (length data) <= 0xfffffff8)%N ->
  length (padded data) + 8 <= length out ->
  kwp_wrap enc data out =
  match rfc5649_wrap enc data with
  | Some c => (KwOk, c ++ skipn (length (padded data) + 8) out)
  | None => (KwEngine, zeros (length out))
  end.
Proof.
  intros data out H1 H2 H3 H4. change (rfc5649_wrap enc data) with (raw_wrap (alternative_iv data) (padded data)).
  pose proof (length_padded data) as LP. destruct (aligned_bounds (length data)) as (AB & AM).
  assert (L0: 1 <= length data) by (destruct data; [congruence|cbn; lia]).
  destruct (alternative_iv_ok data) as (I1 & I2).
  unfold kwp_wrap. destruct (Nat.eqb_spec (length data) 0); [lia|].
  destruct (N.ltb_spec KWP_MAX (N.of_nat (length data))); [unfold KWP_MAX in *; lia|].
  destruct (Nat.ltb_spec (length out) (aligned (length data) + BLOCK)); [unfold BLOCK in *; lia|].
  cbn zeta. change (KWP_IV ++ be_bytes 4 (N.of_nat (length data))) with (alternative_iv data).
  assert (W: splice (splice out BLOCK data) (BLOCK + length data) (repeat 0%N (aligned (length data) - length data)) =
             firstn 8 out ++ padded data ++ skipn (length (padded data) + 8) out).
  { unfold BLOCK. rewrite (splice_parts out data) by lia.
    pose proof (splice_mid N (firstn 8 out ++ data) (skipn (8 + length data) out) []
                  (repeat 0%N (aligned (length data) - length data)) 0) as SM.
    rewrite !app_nil_r, <- !app_assoc in SM. rewrite app_length, firstn_length, Nat.min_l, Nat.add_0_r in SM by lia.
    rewrite SM by (rewrite skipn_length, repeat_length; lia).
    unfold padded, splice. cbn [firstn app]. cbn [Nat.add].
    rewrite <- !app_assoc, skipn_skipn, !repeat_length, app_length, repeat_length.
    replace (aligned (length data) - length data) with ((8 - length data mod 8) mod 8) by (rewrite aligned_spec; lia).
    do 4 f_equal. lia. }
  rewrite W. unfold raw_wrap. rewrite LP. unfold BLOCK.
  pose proof (Nat.div_mod (aligned (length data)) 8 ltac:(lia)) as DM.
  set (x := firstn 8 out). assert (LX: length x = 8) by (unfold x; rewrite firstn_length; lia). clearbody x.
  set (y := skipn (aligned (length data) + 8) out). clearbody y.
  destruct (Nat.ltb_spec 8 (aligned (length data))) as [HL|HL].
  - destruct (Nat.eqb_spec (aligned (length data)) 8); [lia|]. rewrite <- LP.
    rewrite (data_wrap_spec enc dec BC) by (auto using bytes_ok_padded, aligned_le; rewrite LP; auto using aligned_le).
    destruct (rfc_wrap enc (alternative_iv data) (padded data)) as [[c0 c]|]; auto. now rewrite <- app_assoc.
  - destruct (Nat.eqb_spec (aligned (length data)) 8) as [E8|]; [|lia].
    assert (S1: splice (x ++ padded data ++ y) 0 (alternative_iv data) = alternative_iv data ++ padded data ++ y).
    { unfold splice. cbn [firstn app]. rewrite skipn_app_ge by lia. replace (0 + length (alternative_iv data) - length x) with 0 by lia. reflexivity. }
    rewrite S1. rewrite app_assoc.
    assert (L16: length (alternative_iv data ++ padded data) = 16) by (rewrite app_length; lia).
    destruct (app_split (alternative_iv data ++ padded data) y 16 L16) as (F1 & F2). rewrite F1.
    destruct (enc (alternative_iv data ++ padded data)) as [b|] eqn:EE; auto.
    assert (BO: bytes_ok (alternative_iv data ++ padded data)) by (apply bytes_ok_app; auto using bytes_ok_padded).
    destruct (bc_enc _ _ BC _ _ L16 BO EE) as (B1 & _).
    unfold splice. cbn [firstn app]. rewrite skipn_app_ge by lia. replace (0 + length b - length (alternative_iv data ++ padded data)) with 0 by lia. reflexivity.
Qed.

Lemma kwp_raw : forall w d, bytes_ok w -> length w mod 8 = 0 -> 16 <= length w -> length w - 8 <= length d ->
  (N.of_nat (length w) < 2 ^ 32)%N ->
  (if 16 <? length w then data_unwrap dec w d
   else match dec w with None => None | Some b => Some (firstn BLOCK b, splice d 0 (skipn BLOCK b)) end) =
  match raw_unwrap w with Some (a, p) => Some (a, p ++ skipn (length w - 8) d) | None => None end.
Proof.
  intros w d H1 H2 H3 H4 H5. unfold raw_unwrap. destruct (Nat.ltb_spec 16 (length w)) as [HL|HL].
  - destruct (Nat.eqb_spec (length w) 16); [lia|].
    assert (L1: length (firstn 8 w) = 8) by (rewrite firstn_length; lia).
    assert (L2: length (skipn 8 w) = length w - 8) by (rewrite skipn_length; lia).
    assert (M: length (skipn 8 w) mod 8 = 0).
    { rewrite L2. pose proof (Nat.div_mod (length w) 8 ltac:(lia)). apply Nat.mod_divide; [lia|]. exists (length w / 8 - 1). lia. }
    rewrite <- (firstn_skipn 8 w) at 1.
    rewrite (data_unwrap_spec enc dec BC) by (auto using bytes_ok_firstn, bytes_ok_skipn; lia).
    now rewrite L2.
  - destruct (Nat.eqb_spec (length w) 16) as [E|]; [|lia]. destruct (dec w) as [b|] eqn:ED; auto.
    destruct (bc_dec _ _ BC _ _ E H1 ED) as (B1 & _). destruct (halves b B1) as (L1 & L2).
    unfold splice, BLOCK. cbn [firstn app]. rewrite L2, E. reflexivity.
Qed.

Lemma zero_bytes : forall l, forallb (fun b => (b =? 0)%N) l = true <-> l = repeat 0%N (length l).
Proof.
  induction l as [|x l IH]; cbn [forallb length repeat]; [split; auto|]. rewrite andb_true_iff, N.eqb_eq, IH.
  split; [intros (-> & <-); reflexivity|]. intros E. injection E as -> E. auto.
Qed.

Lemma kwp_unwrap_spec : forall w d d' n, bytes_ok w -> length w mod 8 = 0 -> 16 <= length w -> length w - 8 <= length d ->
  (N.of_nat (length w) < 2 ^ 32)%N ->
  kwp_unwrap dec w d = (KwOk, d', n) <->
  exists p, p <> [] /\ bytes_ok p /\ length (padded p) = length w - 8 /\ rfc5649_wrap enc p = Some w /\
    n = length p /\ d' = padded p ++ skipn (length w - 8) d.
Proof.
  intros w d d' n H1 H2 H3 H4 H5. unfold kwp_unwrap. rewrite (kwp_raw w d) by auto.
  assert (AL: aligned (length w) = length w).
  { rewrite aligned_spec, H2. change ((8 - 0) mod 8) with 0. lia. }
  rewrite AL, Nat.eqb_refl. cbn [negb]. unfold BLOCK.
  destruct (Nat.ltb_spec (length w) (8 * 2)); [lia|]. destruct (Nat.ltb_spec (length d) (length w - 8)); [lia|]. cbn zeta.
  pose proof (Nat.div_mod (length w) 8 ltac:(lia)) as DW. rewrite H2 in DW.
  split.
  - destruct (raw_unwrap w) as [[a q]|] eqn:ER; [|intros [=]].
    destruct (raw_unwrap_inv w a q H1 H2 H3 ER) as (A1 & A2 & A3 & A4 & A5).
    destruct (buffer_compare (N.ones 8) (Some a) (Some KWP_IV) 4) eqn:EC; [|intros [=]].
    apply compare_head in EC; auto; [|repeat constructor|cbn; lia].
    destruct (N.leb_spec (be_value (skipn 4 a)) (N.of_nat (length w - 8 * 2))); [intros [=]|].
    destruct (N.ltb_spec (N.of_nat (length w - 8)) (be_value (skipn 4 a))); [intros [=]|].
    destruct (forallb _ _) eqn:EF; [|intros [=]]. intros [= <- <-].
    set (v := be_value (skipn 4 a)) in *. set (k := N.to_nat v) in *.
    assert (LK: length q = length w - 8) by lia.
    assert (KB: length w - 16 < k <= length w - 8) by lia.
    exists (firstn k q).
    assert (LF: length (firstn k q) = k) by (rewrite firstn_length; lia).
    assert (AK: aligned k = length w - 8).
    { destruct (aligned_bounds k) as (B & M). pose proof (Nat.div_mod (aligned k) 8 ltac:(lia)). rewrite M in *.
      set (u := aligned k / 8) in *. set (z := length w / 8) in *. lia. }
    assert (PD: padded (firstn k q) = q).
    { unfold padded. rewrite LF. rewrite <- (firstn_skipn k q) at 2. f_equal. symmetry.
      apply zero_bytes in EF. unfold window in EF. rewrite skipn_app_le in EF by lia.
      rewrite firstn_app_le in EF by (rewrite skipn_length; lia). rewrite firstn_all2 in EF by (rewrite skipn_length; lia).
      rewrite EF. f_equal. rewrite skipn_length, LK, <- AK, aligned_spec. lia. }
    assert (IVE: alternative_iv (firstn k q) = a).
    { unfold alternative_iv. rewrite LF. rewrite <- (firstn_skipn 4 a), EC. f_equal. unfold k. rewrite N2Nat.id. symmetry.
      assert (L4: length (skipn 4 a) = 4) by (rewrite skipn_length; lia). pose proof (be_bytes_unique (skipn 4 a) v (bytes_ok_skipn 4 a A2) eq_refl) as BU. rewrite L4 in BU. exact BU. }
    rewrite PD. splits; auto.
    + intros E. rewrite E in LF. cbn in LF. lia.
    + now apply bytes_ok_firstn.
    + change (rfc5649_wrap enc (firstn k q)) with (raw_wrap (alternative_iv (firstn k q)) (padded (firstn k q))).
      now rewrite PD, IVE.
  - intros (p & P1 & P2 & P3 & P4 & -> & ->).
    change (rfc5649_wrap enc p) with (raw_wrap (alternative_iv p) (padded p)) in P4.
    destruct (alternative_iv_ok p) as (I1 & I2). pose proof (length_padded p) as LP.
    destruct (aligned_bounds (length p)) as (B & M).
    assert (L0: 1 <= length p) by (destruct p; [congruence|cbn; lia]).
    assert (M2: length (padded p) mod 8 = 0) by (rewrite LP; auto).
    destruct (raw_wrap_inv _ _ _ I1 I2 (bytes_ok_padded p P2) M2 ltac:(lia) P4) as (W1 & W2 & W3). rewrite W3.
    assert (EC: buffer_compare (N.ones 8) (Some (alternative_iv p)) (Some KWP_IV) 4 = true).
    { apply compare_head; auto; [repeat constructor|lia]. }
    rewrite EC.
    assert (EV: be_value (skipn 4 (alternative_iv p)) = N.of_nat (length p)).
    { change (skipn 4 (alternative_iv p)) with (be_bytes 4 (N.of_nat (length p))). rewrite be_value_be_bytes.
      apply N.mod_small. change (256 ^ N.of_nat 4)%N with (2 ^ 32)%N. lia. }
    rewrite EV.
    destruct (N.leb_spec (N.of_nat (length p)) (N.of_nat (length w - 8 * 2))); [lia|].
    destruct (N.ltb_spec (N.of_nat (length w - 8)) (N.of_nat (length p))); [lia|].
    rewrite Nat2N.id.
    assert (ZP: window (length p) (length w - 8 - length p) (padded p ++ skipn (length w - 8) d) =
                repeat 0%N ((8 - length p mod 8) mod 8)).
    { unfold padded. rewrite <- app_assoc. unfold window. rewrite skipn_app_ge, Nat.sub_diag by lia. cbn [skipn].
      rewrite firstn_app_le by (rewrite repeat_length; rewrite <- P3, LP, aligned_spec; lia).
      apply firstn_all2. rewrite repeat_length, <- P3, LP, aligned_spec. lia. }
    rewrite ZP.
    assert (ZT: forallb (fun b => (b =? 0)%N) (repeat 0%N ((8 - length p mod 8) mod 8)) = true).
    { apply zero_bytes. now rewrite repeat_length. }
    rewrite ZT. reflexivity.
Qed.

Lemma kwp_unwrap_failure : forall w d st d' n, kwp_unwrap dec w d = (st, d', n) -> st <> KwOk ->
  n = length d /\
  ((d' = d /\ (st = KwNotAligned \/ st = KwNotEnough \/ st = KwSmallBuffer) /\
    (length w mod 8 <> 0 \/ length w < 16 \/ length d < length w - 8)) \/
   (d' = zeros (length d) /\ (st = KwEngine \/ st = KwIntegrity \/ st = KwLength \/ st = KwPadding))).
Proof.
  intros w d st d' n H NE. unfold kwp_unwrap in H.
  destruct (Nat.eqb_spec (aligned (length w)) (length w)) as [EA|EA]; cbn [negb] in H.
  2:{ injection H as <- <- <-. split; auto. left. splits; auto. left. intros M. apply EA.
      rewrite aligned_spec, M. change ((8 - 0) mod 8) with 0. lia. }
  destruct (Nat.ltb_spec (length w) (BLOCK * 2)); [injection H as <- <- <-; split; auto; left; splits; auto; unfold BLOCK in *; lia|].
  destruct (Nat.ltb_spec (length d) (length w - BLOCK)); [injection H as <- <- <-; split; auto; left; splits; auto; unfold BLOCK in *; lia|].
  cbn zeta in H. destruct (if 16 <? length w then _ else _) as [[a q]|].
  2:{ injection H as <- <- <-. split; [auto|right; auto]. }
  destruct (buffer_compare _ _ _ _); [|injection H as <- <- <-; split; [auto|right; auto]].
  destruct (_ <=? _)%N; [injection H as <- <- <-; split; [auto|right; auto]|].
  destruct (_ <? _)%N; [injection H as <- <- <-; split; [auto|right; auto]|].
  destruct (forallb _ _); [congruence|]. injection H as <- <- <-. split; [auto|right; splits; auto].
Qed.
End Cipher.
