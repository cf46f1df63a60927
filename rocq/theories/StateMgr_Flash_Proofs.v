(** Proofs about the non-volatile state manager, part 2: the two sectors. *)
From Coq Require Import List NArith Lia Bool Arith ZifyBool ZifyNat ZifyN.
From Verif Require Import Base Flash_Base StateMgr_Model StateMgr_Spec StateMgr_Proofs.
Import ListNotations.
Local Open Scope N_scope.

Section Flash.
Variables base ss K : N.
Hypothesis Hss : ss = 8 * K.
Hypothesis HK : 2 <= K.

Definition ad (i : N) : N := base + 8 * i.
Definition val (m : image) (i : N) : N := rs_val (entry_at m (ad i)).
Definition valid (m : image) (i : N) : Prop := N.testbit (val m i) 6 = false.
Definition bslot (m : image) (i : N) : Prop := blank_on m (ad i) 8.

Definition live (m : image) (c : N) : Prop :=
  (c < K /\ (forall j, j <= c -> valid m j) /\ (forall j, c < j < K -> bslot m j) /\
   (c = K - 1 -> bslot m K)) \/
  (K <= c < 2 * K /\ (forall j, K <= j <= c -> valid m j) /\ (forall j, c < j < 2 * K -> bslot m j) /\
   (bslot m 0 \/ forall j, j < K -> valid m j)).

Lemma entry_ext : forall m m' a, (forall x, a <= x < a + 8 -> m x = m' x) -> entry_at m a = entry_at m' a.
Proof.
  intros m m' a H. unfold entry_at, word_at. rewrite !H by lia. reflexivity.
Qed.

Lemma entry_blank : forall m a, blank_on m a 8 -> entry_at m a = (65535, 65535, 65535, 65535).
Proof.
  intros m a H. unfold entry_at, word_at. rewrite !H by lia. reflexivity.
Qed.

Lemma val_bslot : forall m i, bslot m i -> val m i = 65535.
Proof. intros. unfold val. rewrite entry_blank by auto. apply rs_val_blank. Qed.

Lemma bslot_not_valid : forall m i, bslot m i -> ~ valid m i.
Proof. intros m i H V. unfold valid in V. rewrite val_bslot in V by auto. discriminate. Qed.

Lemma val_ext : forall m m' i, (forall x, ad i <= x < ad i + 8 -> m x = m' x) -> val m i = val m' i.
Proof. intros. unfold val. now rewrite entry_ext with (m' := m'). Qed.

Lemma val_write_out : forall m i j d, (length d <= 8)%nat -> i <> j ->
  val (nor_write m (ad i) d) j = val m j.
Proof.
  intros. apply val_ext. intros x Hx. apply nor_write_out. unfold ad in *. lia.
Qed.

Lemma bslot_write_out : forall m i j d, (length d <= 8)%nat -> i <> j -> bslot m j ->
  bslot (nor_write m (ad i) d) j.
Proof. intros. apply blank_write_out; auto. unfold ad in *. lia. Qed.

Lemma val_erase_out : forall m a n j, ad j + 8 <= a \/ a + n <= ad j ->
  val (nor_erase m a n) j = val m j.
Proof. intros. apply val_ext. intros x Hx. apply nor_erase_out. lia. Qed.

Lemma entry_bytes_ok : forall w, w < 65536 -> bytes_ok (entry_bytes w).
Proof.
  intros. unfold entry_bytes, bytes_ok, byte_ok.
  assert (w mod 256 < 256) by (apply N.mod_lt; lia).
  assert (w / 256 < 256) by (apply N.div_lt_upper_bound; lia).
  repeat constructor; auto.
Qed.

Lemma bytes_ok_firstn : forall k d, bytes_ok d -> bytes_ok (firstn k d).
Proof. intros. now apply Forall_firstn. Qed.

Lemma written_byte : forall m i w k n, w < 65536 -> bslot m i -> (n < k)%nat -> (n < 8)%nat ->
  nor_write m (ad i) (firstn k (entry_bytes w)) (ad i + N.of_nat n) = nth n (entry_bytes w) 0.
Proof.
  intros m i w k n Hw Hb Hn H8. rewrite nor_write_blank.
  - replace (N.to_nat (ad i + N.of_nat n - ad i)) with n by lia. rewrite nth_firstn; auto.
  - apply bytes_ok_firstn. now apply entry_bytes_ok.
  - rewrite firstn_length. change (length (entry_bytes w)) with 8%nat. lia.
  - apply Hb. lia.
Qed.

Lemma val_write_in : forall m i w k, w < 65536 -> stored_form w -> bslot m i -> (4 <= k)%nat ->
  val (nor_write m (ad i) (firstn k (entry_bytes w))) i = w.
Proof.
  intros m i w k Hw Hf Hb Hk. unfold val, entry_at. apply majority_two; auto. left.
  assert (E: w = w mod 256 + 256 * (w / 256)).
  { rewrite (N.div_mod w 256) at 1 by lia. lia. }
  pose proof (written_byte m i w k 0 Hw Hb). pose proof (written_byte m i w k 1 Hw Hb).
  pose proof (written_byte m i w k 2 Hw Hb). pose proof (written_byte m i w k 3 Hw Hb).
  cbn [N.of_nat Pos.of_succ_nat Pos.succ] in *. rewrite N.add_0_r in H.
  cbn [nth entry_bytes] in *.
  unfold word_at. replace (ad i + 2 + 1) with (ad i + 3) by lia.
  rewrite H, H0, H1, H2 by lia. auto.
Qed.

Lemma err_write_in : forall m i w, w < 65536 -> bslot m i ->
  rs_err (entry_at (nor_write m (ad i) (entry_bytes w)) (ad i)) = false.
Proof.
  intros m i w Hw Hb. unfold entry_at.
  assert (E: w = w mod 256 + 256 * (w / 256)).
  { rewrite (N.div_mod w 256) at 1 by lia. lia. }
  change (entry_bytes w) with (firstn 8 (entry_bytes w)).
  pose proof (written_byte m i w 8 0 Hw Hb). pose proof (written_byte m i w 8 1 Hw Hb).
  pose proof (written_byte m i w 8 2 Hw Hb). pose proof (written_byte m i w 8 3 Hw Hb).
  pose proof (written_byte m i w 8 4 Hw Hb). pose proof (written_byte m i w 8 5 Hw Hb).
  cbn [N.of_nat Pos.of_succ_nat Pos.succ] in *. rewrite N.add_0_r in H.
  cbn [nth entry_bytes] in *.
  unfold word_at. replace (ad i + 2 + 1) with (ad i + 3) by lia.
  replace (ad i + 4 + 1) with (ad i + 5) by lia.
  rewrite H, H0, H1, H2, H3, H4 by lia. rewrite <- E. apply err_three.
Qed.

(** The scan. *)
Lemma cont_valid : forall v, negb (v =? 65535) && negb (is_single v) = negb (N.testbit v 6).
Proof.
  intros. rewrite is_single_bit. destruct (N.testbit v 6) eqn:E; cbn; [apply andb_false_r|].
  destruct (N.eqb_spec v 65535); auto. subst. discriminate.
Qed.

Lemma scan : forall n fuel m i nv err r,
  (n < fuel)%nat -> i + N.of_nat n <= 2 * K ->
  (forall j, i <= j < i + N.of_nat n -> valid m j) ->
  (i + N.of_nat n = 2 * K \/ ~ valid m (i + N.of_nat n)) ->
  exists nv2 err2 r2, multi_inner base ss fuel m (8 * i) nv err r =
    (8 * (i + N.of_nat n),
     match n with O => nv | _ => val m (i + N.of_nat n - 1) end,
     match n with O => err | _ => rs_err (entry_at m (ad (i + N.of_nat n - 1))) end, nv2, err2, r2).
Proof.
  induction n as [|n IH]; intros fuel m i nv err r Hf Hle Hv Hend.
  - destruct fuel as [|f]; [lia|]. cbn [multi_inner]. rewrite N.add_0_r in *.
    destruct (N.ltb_spec (8 * i) (2 * ss)) as [L|L].
    + destruct Hend as [Hend|Hend]; [lia|].
      fold (ad i). destruct (read_state_bits_eq (entry_at m (ad i)) r) as (rf & ->).
      fold (val m i). rewrite cont_valid. unfold valid in Hend.
      destruct (N.testbit (val m i) 6); [|congruence]. cbn [negb]. eauto.
    + eauto.
  - destruct fuel as [|f]; [lia|]. cbn [multi_inner].
    destruct (N.ltb_spec (8 * i) (2 * ss)) as [L|L]; [|lia].
    fold (ad i). destruct (read_state_bits_eq (entry_at m (ad i)) r) as (rf & ->).
    fold (val m i). rewrite cont_valid.
    assert (V: valid m i) by (apply Hv; lia). unfold valid in V. rewrite V. cbn [negb].
    replace (8 * i + 8) with (8 * (i + 1)) by lia.
    destruct (IH f m (i + 1) (val m i) (rs_err (entry_at m (ad i))) (r || rf)) as (a & b & c & E); try lia.
    + intros j Hj. apply Hv. lia.
    + replace (i + 1 + N.of_nat n) with (i + N.of_nat (S n)) by lia. auto.
    + rewrite E. replace (i + 1 + N.of_nat n) with (i + N.of_nat (S n)) by lia.
      exists a, b, c. destruct n; auto.
      replace (i + N.of_nat 1 - 1) with i by lia. reflexivity.
Qed.

Lemma init_multi_live : forall m c, live m c -> exists rf,
  init_multi_byte base ss m = (8 * (c + 1), val m c, rs_err (entry_at m (ad c)), rf).
Proof.
  intros m c H. unfold init_multi_byte, scan_fuel. change 0 with (8 * 0) at 1.
  destruct H as [(Hc & Hv & Hb & Hlast)|(Hc & Hv & Hb & Hother)].
  - destruct (scan (S (N.to_nat c)) (S (N.to_nat (2 * ss))) m 0 65535 false false)
      as (a & b & r & E); try lia.
    + intros j Hj. apply Hv. lia.
    + right. replace (0 + N.of_nat (S (N.to_nat c))) with (c + 1) by lia.
      apply bslot_not_valid. destruct (N.eq_dec (c + 1) K) as [Q|]; [rewrite Q; apply Hlast; lia|apply Hb; lia].
    + rewrite E. destruct (N.eqb_spec (8 * (0 + N.of_nat (S (N.to_nat c)))) 0); [lia|].
      replace (0 + N.of_nat (S (N.to_nat c)) - 1) with c by lia.
      replace (0 + N.of_nat (S (N.to_nat c))) with (c + 1) by lia. eauto.
  - assert (Hend: c + 1 = 2 * K \/ ~ valid m (c + 1)).
    { destruct (N.eq_dec (c + 1) (2 * K)); auto. right. apply bslot_not_valid, Hb. lia. }
    destruct Hother as [H0|Hall].
    + destruct (scan 0 (S (N.to_nat (2 * ss))) m 0 65535 false false) as (a & b & r & E); try lia.
      { right. now apply bslot_not_valid. }
      rewrite E. change (8 * (0 + N.of_nat 0) =? 0) with true. cbn match.
      match goal with |- context [multi_inner base ss ?f m ss] => replace (multi_inner base ss f m ss) with (multi_inner base ss f m (8 * K)) by (now rewrite <- Hss) end.
      destruct (scan (S (N.to_nat (c - K))) (S (N.to_nat (2 * ss))) m K a b r)
        as (a' & b' & r' & E'); try lia.
      { intros j Hj. apply Hv. lia. }
      { replace (K + N.of_nat (S (N.to_nat (c - K)))) with (c + 1) by lia. auto. }
      rewrite E'. replace (K + N.of_nat (S (N.to_nat (c - K)))) with (c + 1) by lia.
      replace (c + 1 - 1) with c by lia. eauto.
    + destruct (scan (S (N.to_nat c)) (S (N.to_nat (2 * ss))) m 0 65535 false false)
        as (a & b & r & E); try lia.
      { intros j Hj. destruct (N.lt_ge_cases j K); auto. apply Hv. lia. }
      { replace (0 + N.of_nat (S (N.to_nat c))) with (c + 1) by lia. auto. }
      rewrite E. destruct (N.eqb_spec (8 * (0 + N.of_nat (S (N.to_nat c)))) 0); [lia|].
      replace (0 + N.of_nat (S (N.to_nat c)) - 1) with c by lia.
      replace (0 + N.of_nat (S (N.to_nat c))) with (c + 1) by lia. eauto.
Qed.

Definition sector_end (c : N) : N := if c <? K then K - 1 else 2 * K - 1.

Definition mem_ok (m : image) (c : N) (a last : N) : Prop :=
  (last = 65535 /\ (a = ad c \/ a = ad (sector_end c))) \/
  (last = val m c /\ a = ad c /\ rs_err (entry_at m (ad c)) = false).

Lemma init_live : forall m c, live m c -> exists a last,
  init_state base ss m = ([], mk_sm a (val m c) last false false) /\ mem_ok m c a last.
Proof.
  intros m c H. destruct (init_multi_live m c H) as (rf & E).
  unfold init_state. fold (rs_val (entry_at m base)). fold (rs_val (entry_at m (base + ss))).
  replace (rs_val (entry_at m base)) with (val m 0) by (unfold val, ad; do 2 f_equal; lia).
  replace (rs_val (entry_at m (base + ss))) with (val m K) by (unfold val, ad; do 2 f_equal; lia).
  assert (V: valid m 0 \/ valid m K).
  { destruct H as [(Hc & Hv & _)|(Hc & Hv & _)]; [left|right]; apply Hv; lia. }
  assert (C1: negb (val m 0 =? 65535) || negb (val m K =? 65535) = true).
  { unfold valid in V. destruct (N.eqb_spec (val m 0) 65535) as [Q|]; auto.
    destruct (N.eqb_spec (val m K) 65535) as [Q'|]; auto. rewrite Q, Q' in V. destruct V; discriminate. }
  assert (C2: negb (is_single (val m 0)) || negb (is_single (val m K)) = true).
  { rewrite !is_single_bit. unfold valid in V. destruct V as [->| ->]; cbn; auto. apply orb_true_r. }
  rewrite C1, C2, E.
  assert (HcK: c < 2 * K) by (destruct H as [(Hc & _)|(Hc & _)]; lia).
  replace (base + 8 * (c + 1) - 8) with (ad c) by (unfold ad; lia).
  rewrite N.mul_comm, N.mod_mul by lia. change (0 =? 0) with true. cbn match.
  eexists _, _. split; [reflexivity|]. unfold mem_ok.
  destruct rf; cbn [orb].
  - left. split; auto. right. unfold next_sector_addr, sector_end, ad.
    destruct (N.ltb_spec (base + 8 * c) (base + ss)); destruct (N.ltb_spec c K); lia.
  - destruct (rs_err (entry_at m (ad c))) eqn:R; auto.
Qed.

Definition fresh (m : image) : Prop := blank_on m base (2 * ss).

Lemma fresh_slot : forall m i, fresh m -> i < 2 * K -> bslot m i.
Proof. intros m i H Hi. eapply blank_on_sub; [exact H| |]; unfold ad; lia. Qed.

Lemma init_fresh : forall m, fresh m ->
  init_state base ss m = ([FErase base ss], mk_sm (ad (2 * K - 1)) 65535 65535 true false).
Proof.
  intros m H. unfold init_state.
  fold (rs_val (entry_at m base)). fold (rs_val (entry_at m (base + ss))).
  replace (rs_val (entry_at m base)) with (val m 0) by (unfold val, ad; do 2 f_equal; lia).
  replace (rs_val (entry_at m (base + ss))) with (val m K) by (unfold val, ad; do 2 f_equal; lia).
  rewrite !val_bslot by (apply fresh_slot; auto; lia).
  change (negb (65535 =? 65535) || negb (65535 =? 65535)) with false. cbn match. cbn [orb].
  do 3 f_equal. unfold ad. lia.
Qed.

Definition good (m : image) : Prop := fresh m \/ exists c, live m c.

Lemma recovered_live : forall m c, live m c -> recovered base ss m = val m c.
Proof. intros m c H. unfold recovered. destruct (init_live m c H) as (a & l & -> & _). reflexivity. Qed.

Lemma recovered_fresh : forall m, fresh m -> recovered base ss m = 65535.
Proof. intros m H. unfold recovered. now rewrite init_fresh. Qed.

(** Erasing the sector not in use. *)
Definition other_base (c : N) : N := if c <? K then base + ss else base.

Lemma erase_other : forall m c j, live m c -> j = 0 \/ 8 <= j -> j <= ss ->
  live (nor_erase m (other_base c) j) c /\ val (nor_erase m (other_base c) j) c = val m c /\
  entry_at (nor_erase m (other_base c) j) (ad c) = entry_at m (ad c).
Proof.
  intros m c j H Hj Hjs. unfold other_base.
  destruct H as [(Hc & Hv & Hb & Hlast)|(Hc & Hv & Hb & Hother)].
  - destruct (N.ltb_spec c K); [|lia].
    assert (OUT: forall i, i < K -> val (nor_erase m (base + ss) j) i = val m i).
    { intros i Hi. apply val_erase_out. unfold ad. lia. }
    repeat split.
    + left. repeat split; auto.
      * intros i Hi. unfold valid. rewrite OUT by lia. now apply Hv.
      * intros i Hi. apply blank_erase. apply Hb; auto.
      * intros Hl. apply blank_erase. apply Hlast; auto.
    + apply OUT. auto.
    + apply entry_ext. intros x Hx. apply nor_erase_out. unfold ad in Hx. lia.
  - destruct (N.ltb_spec c K); [lia|].
    assert (OUT: forall i, K <= i -> val (nor_erase m base j) i = val m i).
    { intros i Hi. apply val_erase_out. unfold ad. lia. }
    repeat split.
    + right. repeat split; try lia.
      * intros i Hi. unfold valid. rewrite OUT by lia. apply Hv; lia.
      * intros i Hi. apply blank_erase. apply Hb; auto.
      * destruct Hother as [B|A]; [left; now apply blank_erase|].
        destruct Hj as [->|Hj].
        -- right. intros i Hi. unfold valid. rewrite val_erase_out by (unfold ad; lia). apply A; lia.
        -- left. intros x Hx. apply nor_erase_in. unfold ad in Hx. lia.
    + apply OUT. lia.
    + apply entry_ext. intros x Hx. apply nor_erase_out. unfold ad in Hx. lia.
Qed.

(** Programming the next entry in the sector in use. *)
Lemma write_same : forall m c w k, live m c -> w < 65536 -> stored_form w -> (4 <= k)%nat ->
  c + 1 < 2 * K -> c + 1 <> K -> (c + 1 = K - 1 -> blank_on m (base + ss) ss) ->
  bslot m (c + 1) /\
  live (nor_write m (ad (c + 1)) (firstn k (entry_bytes w))) (c + 1) /\
  val (nor_write m (ad (c + 1)) (firstn k (entry_bytes w))) (c + 1) = w.
Proof.
  intros m c w k H Hw Hf Hk H2K HnK Hb2.
  assert (B: bslot m (c + 1)).
  { destruct H as [(Hc & Hv & Hb & Hlast)|(Hc & Hv & Hb & Hother)]; apply Hb; lia. }
  set (d := firstn k (entry_bytes w)).
  assert (Ld: (length d <= 8)%nat).
  { unfold d. rewrite firstn_length. change (length (entry_bytes w)) with 8%nat. lia. }
  assert (V: val (nor_write m (ad (c + 1)) d) (c + 1) = w) by (now apply val_write_in).
  assert (VV: valid (nor_write m (ad (c + 1)) d) (c + 1)).
  { unfold valid. rewrite V. apply Hf. }
  assert (OV: forall i, i <> c + 1 -> valid m i -> valid (nor_write m (ad (c + 1)) d) i).
  { intros i Hi Hvi. unfold valid in *. rewrite val_write_out; auto. }
  assert (OB: forall i, i <> c + 1 -> bslot m i -> bslot (nor_write m (ad (c + 1)) d) i).
  { intros. apply bslot_write_out; auto. }
  split; [auto|]. split; [|auto].
  destruct H as [(Hc & Hv & Hb & Hlast)|(Hc & Hv & Hb & Hother)].
  - left. repeat split; try lia.
    + intros j Hj. destruct (N.eq_dec j (c + 1)) as [->|]; auto. apply OV; auto. apply Hv. lia.
    + intros j Hj. apply OB; [lia|]. apply Hb. lia.
    + intros Hl. apply OB; [lia|]. eapply blank_on_sub; [apply Hb2; lia| |]; unfold ad; lia.
  - right. repeat split; try lia.
    + intros j Hj. destruct (N.eq_dec j (c + 1)) as [->|]; auto. apply OV; auto. apply Hv. lia.
    + intros j Hj. apply OB; [lia|]. apply Hb. lia.
    + destruct Hother as [B0|A]; [left; apply OB; auto; lia|right; intros j Hj; apply OV; [lia|auto]].
Qed.

(** Programming the first entry of the first sector. *)
Lemma write_first : forall m w k, blank_on m base ss -> w < 65536 -> stored_form w -> (4 <= k)%nat ->
  bslot m 0 /\
  live (nor_write m (ad 0) (firstn k (entry_bytes w))) 0 /\
  val (nor_write m (ad 0) (firstn k (entry_bytes w))) 0 = w.
Proof.
  intros m w k H Hw Hf Hk.
  assert (SB: forall i, i < K -> bslot m i).
  { intros i Hi. eapply blank_on_sub; [exact H| |]; unfold ad; lia. }
  assert (B: bslot m 0) by (apply SB; lia).
  set (d := firstn k (entry_bytes w)).
  assert (Ld: (length d <= 8)%nat).
  { unfold d. rewrite firstn_length. change (length (entry_bytes w)) with 8%nat. lia. }
  assert (V: val (nor_write m (ad 0) d) 0 = w) by (now apply val_write_in).
  split; [auto|]. split; [|auto]. left. repeat split; try lia.
  - intros j Hj. replace j with 0 by lia. unfold valid. rewrite V. apply Hf.
  - intros j Hj. apply bslot_write_out; auto; try lia. apply SB. lia.
Qed.

(** Programming the first entry of the second sector. *)
Lemma write_second : forall m c w k, live m c -> c < K -> blank_on m (base + ss) ss ->
  w < 65536 -> stored_form w -> (4 <= k)%nat ->
  let m' := nor_write m (ad K) (firstn k (entry_bytes w)) in
  bslot m K /\
  val m' K = w /\
  (c = K - 1 -> live m' K) /\
  (c <> K - 1 -> live m' c /\ val m' c = val m c) /\
  (forall j, 8 <= j -> j <= ss -> live (nor_erase m' base j) K /\ val (nor_erase m' base j) K = w /\
     entry_at (nor_erase m' base j) (ad K) = entry_at m' (ad K)).
Proof.
  intros m c w k H HcK H2 Hw Hf Hk m'.
  assert (SB: forall i, K <= i < 2 * K -> bslot m i).
  { intros i Hi. eapply blank_on_sub; [exact H2| |]; unfold ad; lia. }
  assert (B: bslot m K) by (apply SB; lia).
  set (d := firstn k (entry_bytes w)) in *.
  assert (Ld: (length d <= 8)%nat).
  { unfold d. rewrite firstn_length. change (length (entry_bytes w)) with 8%nat. lia. }
  assert (V: val m' K = w) by (now apply val_write_in).
  assert (VV: valid m' K) by (unfold valid; rewrite V; apply Hf).
  destruct H as [(Hc & Hv & Hb & Hlast)|(Hc & _)]; [|lia].
  assert (OV: forall i, i <> K -> valid m i -> valid m' i).
  { intros i Hi Hvi. unfold valid, m' in *. rewrite val_write_out; auto. }
  assert (OB: forall i, i <> K -> bslot m i -> bslot m' i).
  { intros. apply bslot_write_out; auto. }
  split; [auto|]. split; [auto|]. split; [|split].
  - intros Hl. right. repeat split; try lia.
    + intros j Hj. now replace j with K by lia.
    + intros j Hj. apply OB; [lia|]. apply SB. lia.
    + right. intros j Hj. apply OV; [lia|]. apply Hv. lia.
  - intros Hl. split; [|apply val_write_out; auto; lia].
    left. repeat split; try lia.
    + intros j Hj. apply OV; [lia|auto].
    + intros j Hj. apply OB; [lia|auto].
  - intros j Hj Hjs.
    assert (VE: forall i, K <= i -> val (nor_erase m' base j) i = val m' i).
    { intros i Hi. apply val_erase_out. unfold ad. lia. }
    repeat split.
    + right. repeat split; try lia.
      * intros i Hi. replace i with K by lia. unfold valid. rewrite VE by lia. auto.
      * intros i Hi. apply blank_erase. apply OB; [lia|]. apply SB. lia.
      * left. intros x Hx. apply nor_erase_in. unfold ad in Hx. lia.
    + rewrite VE by lia. auto.
    + apply entry_ext. intros x Hx. apply nor_erase_out. unfold ad in Hx. lia.
Qed.

End Flash.
