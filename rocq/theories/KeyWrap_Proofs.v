(** Proofs about AES key wrap. *)
From Coq Require Import List NArith Lia Bool Arith ZifyBool ZifyNat ZifyN.
From Verif Require Import Base ByteMath_Model ByteMath_Proofs BufferUtil_Model BufferUtil_Proofs
  KeyWrap_Model KeyWrap_Spec FlashStore_Layout_Proofs.
Import ListNotations.
Local Open Scope nat_scope.

(** * Bytes *)
Lemma length_be_bytes : forall k v, length (be_bytes k v) = k.
Proof. induction k; intros; cbn [be_bytes length]; auto. Qed.

Lemma bytes_ok_be_bytes : forall k v, bytes_ok (be_bytes k v).
Proof.
  induction k; intros; constructor; [|apply IHk]. unfold byte_ok. apply N.mod_lt. lia.
Qed.

Lemma be_value_be_bytes : forall k v, be_value (be_bytes k v) = (v mod 256 ^ N.of_nat k)%N.
Proof.
  induction k; intros v; [cbn; now rewrite N.mod_1_r|].
  cbn [be_bytes]. rewrite be_value_cons, length_be_bytes, IHk, Nat2N.inj_succ, N.pow_succ_r', (N.mul_comm 256).
  rewrite N.mod_mul_r; [lia| |lia]. apply N.pow_nonzero. lia.
Qed.

Lemma be_bytes_unique : forall l v, bytes_ok l -> be_value l = v -> l = be_bytes (length l) v.
Proof.
  intros l v H E. apply be_value_inj; auto; [now rewrite length_be_bytes|apply bytes_ok_be_bytes|].
  rewrite be_value_be_bytes, E. symmetry. apply N.mod_small. rewrite <- E. now apply be_value_bound.
Qed.

Lemma increment_counter : forall v, (v + 1 < 2 ^ 64)%N ->
  fst (increment_byte_array (be_bytes 8 v) false) = be_bytes 8 (v + 1).
Proof.
  intros v H. change (2 ^ 64)%N with (256 ^ 8)%N in H.
  assert (E: be_value (be_bytes 8 v) = v).
  { rewrite be_value_be_bytes. apply N.mod_small. change (N.of_nat 8) with 8%N. lia. }
  destruct (increment_correct (be_bytes 8 v) false) as (l & L1 & L2 & L3 & L4).
  - discriminate.
  - apply bytes_ok_be_bytes.
  - rewrite length_be_bytes, E. exact H.
  - rewrite L1. cbn [fst]. rewrite length_be_bytes in L2. rewrite E in L4. rewrite <- L2. now apply be_bytes_unique.
Qed.

Lemma decrement_counter : forall v, (v + 1 < 2 ^ 64)%N ->
  fst (decrement_byte_array (be_bytes 8 (v + 1)) false) = be_bytes 8 v.
Proof.
  intros v H. change (2 ^ 64)%N with (256 ^ 8)%N in H.
  assert (E: be_value (be_bytes 8 (v + 1)) = (v + 1)%N).
  { rewrite be_value_be_bytes. apply N.mod_small. exact H. }
  destruct (decrement_correct (be_bytes 8 (v + 1)) false) as (l & L1 & L2 & L3 & L4).
  - discriminate.
  - apply bytes_ok_be_bytes.
  - rewrite E. lia.
  - rewrite L1. cbn [fst]. rewrite length_be_bytes in L2. rewrite E, N.add_sub in L4. rewrite <- L2. now apply be_bytes_unique.
Qed.

Lemma length_xor : forall a b, length a = length b -> length (xor_bytes a b) = length a.
Proof. induction a; destruct b; cbn; intros; try lia. f_equal. apply IHa. lia. Qed.

Lemma lxor_byte : forall x y, byte_ok x -> byte_ok y -> byte_ok (N.lxor x y).
Proof.
  unfold byte_ok. intros x y Hx Hy. change 256%N with (2 ^ 8)%N in *.
  destruct (N.eq_dec (N.lxor x y) 0) as [->|NZ]; [reflexivity|].
  apply N.log2_lt_pow2; [lia|]. eapply N.le_lt_trans; [apply N.log2_lxor|].
  apply N.max_lub_lt.
  - destruct (N.eq_dec x 0) as [->|]; [reflexivity|apply N.log2_lt_pow2; lia].
  - destruct (N.eq_dec y 0) as [->|]; [reflexivity|apply N.log2_lt_pow2; lia].
Qed.

Lemma bytes_ok_xor : forall a b, bytes_ok a -> bytes_ok b -> bytes_ok (xor_bytes a b).
Proof.
  induction a; destruct b; cbn; intros Ha Hb; try constructor.
  - inversion Ha; inversion Hb; subst. now apply lxor_byte.
  - inversion Ha; inversion Hb; subst. now apply IHa.
Qed.

Lemma xor_xor : forall a b, length a = length b -> xor_bytes (xor_bytes a b) b = a.
Proof.
  induction a; destruct b; cbn; intros; try lia; auto. f_equal; [|apply IHa; lia].
  now rewrite N.lxor_assoc, N.lxor_nilpotent, N.lxor_0_r.
Qed.

(** * Splicing *)
Lemma splice_mid : forall (A : Type) (x r y b : list A) o, o + length b <= length r ->
  splice (x ++ r ++ y) (length x + o) b = x ++ splice r o b ++ y.
Proof.
  intros A x r y b o H. unfold splice.
  rewrite firstn_app_ge by lia. rewrite Nat.add_comm, Nat.add_sub.
  rewrite firstn_app_le by lia. rewrite skipn_app_ge by lia.
  replace (o + length x + length b - length x) with (o + length b) by lia.
  rewrite skipn_app_le by lia. now rewrite <- !app_assoc.
Qed.

Lemma window_mid : forall (A : Type) (x r y : list A) o n, o + n <= length r ->
  window (length x + o) n (x ++ r ++ y) = window o n r.
Proof.
  intros A x r y o n H. unfold window. rewrite skipn_app_ge by lia. rewrite Nat.add_comm, Nat.add_sub.
  rewrite skipn_app_le by lia. rewrite firstn_app_le; auto. rewrite skipn_length. lia.
Qed.

Lemma splice_splice : forall (A : Type) (r a b : list A) o, length a = length b -> o + length a <= length r ->
  splice (splice r o a) o b = splice r o b.
Proof.
  intros A r a b o H1 H2. unfold splice.
  rewrite firstn_app_le by (rewrite firstn_length; lia). rewrite firstn_firstn, Nat.min_id. f_equal. f_equal.
  rewrite skipn_app_ge by (rewrite firstn_length; lia). rewrite firstn_length, Nat.min_l by lia.
  replace (o + length b - o) with (length a) by lia. rewrite skipn_app_ge, Nat.sub_diag by lia. cbn [skipn]. f_equal. lia.
Qed.

Lemma splice_window : forall (A : Type) (r : list A) o n, o + n <= length r -> splice r o (window o n r) = r.
Proof.
  intros A r o n H. unfold splice. rewrite length_window, Nat.min_l by lia. unfold window.
  rewrite <- skipn_skipn. rewrite firstn_skipn. apply firstn_skipn.
Qed.

(** * The steps *)
Definition good (n : nat) (s : list N * list N) : Prop :=
  length (fst s) = 8 /\ bytes_ok (fst s) /\ length (snd s) = 8 * n /\ bytes_ok (snd s).

Lemma bytes_ok_window : forall o n l, bytes_ok l -> bytes_ok (window o n l).
Proof. intros. unfold window. apply Forall_firstn, Forall_skipn. auto. Qed.

Lemma bytes_ok_firstn : forall n l, bytes_ok l -> bytes_ok (firstn n l).
Proof. intros. now apply Forall_firstn. Qed.
Lemma bytes_ok_skipn : forall n l, bytes_ok l -> bytes_ok (skipn n l).
Proof. intros. now apply Forall_skipn. Qed.

Lemma bytes_ok_splice : forall l o d, bytes_ok l -> bytes_ok d -> bytes_ok (splice l o d).
Proof.
  intros. unfold splice. apply bytes_ok_app. split; [now apply Forall_firstn|]. apply bytes_ok_app. split; auto.
  now apply Forall_skipn.
Qed.

Section Cipher.
Variables enc dec : list N -> option (list N).
Hypothesis BC : block_cipher enc dec.

Local Opaque be_bytes xor_bytes firstn skipn.
Notation wstep := (rfc_wrap_step enc).
Notation ustep := (rfc_unwrap_step dec).

Lemma fold_none_w : forall l, fold_left wstep l None = None.
Proof. clear. induction l; auto. Qed.
Lemma fold_none_u : forall l, fold_left ustep l None = None.
Proof. clear. induction l; auto. Qed.

Lemma step_block : forall n a r i, good n (a, r) -> 1 <= i <= n ->
  length (a ++ reg i r) = 16 /\ bytes_ok (a ++ reg i r).
Proof.
  clear. intros n a r i (G1 & G2 & G3 & G4) Hi. cbn [fst snd] in *. split.
  - rewrite app_length. unfold reg. rewrite length_window. lia.
  - apply bytes_ok_app. split; auto. now apply bytes_ok_window.
Qed.

Lemma halves : forall b : list N, length b = 16 -> length (firstn 8 b) = 8 /\ length (skipn 8 b) = 8.
Proof. clear. intros b H. rewrite firstn_length, skipn_length. lia. Qed.

Lemma app_split : forall (a b : list N) n, length a = n -> firstn n (a ++ b) = a /\ skipn n (a ++ b) = b.
Proof.
  clear. intros a b n H. subst n. split.
  - rewrite firstn_app_le, firstn_all by lia. reflexivity.
  - rewrite skipn_app_ge, Nat.sub_diag by lia. reflexivity.
Qed.

Lemma wstep_inv : forall n s s' t i, good n s -> 1 <= i <= n -> wstep (Some s) (t, i) = Some s' ->
  good n s' /\ ustep (Some s') (t, i) = Some s.
Proof.
  intros n [a r] s' t i G Hi H. pose proof (step_block n a r i G Hi) as (SB1 & SB2).
  destruct G as (G1 & G2 & G3 & G4). cbn [fst snd] in *. cbn [rfc_wrap_step rfc_unwrap_step fst snd] in H.
  destruct (enc (a ++ reg i r)) as [b|] eqn:E; [|discriminate]. injection H as <-.
  destruct (bc_enc _ _ BC _ _ SB1 SB2 E) as (B1 & B2 & B3). destruct (halves b B1) as (H1 & H2).
  assert (LX: length (xor_bytes (firstn 8 b) (be_bytes 8 (N.of_nat t))) = 8).
  { rewrite length_xor; rewrite ?length_be_bytes; auto. }
  assert (RNG: 8 * (i - 1) + length (skipn 8 b) <= length r) by lia.
  split.
  - split; [|split; [|split]]; cbn [fst snd].
    + exact LX.
    + apply (bytes_ok_xor (firstn 8 b)); [apply bytes_ok_firstn; exact B2|apply bytes_ok_be_bytes].
    + unfold set_reg. rewrite length_splice; auto.
    + unfold set_reg. apply bytes_ok_splice; auto. apply bytes_ok_skipn; exact B2.
  - cbn [rfc_unwrap_step fst snd]. rewrite xor_xor by now rewrite length_be_bytes, H1.
    assert (R: reg i (set_reg i (skipn 8 b) r) = skipn 8 b).
    { unfold reg, set_reg. pose proof (window_splice r (8 * (i - 1)) (skipn 8 b) RNG) as WS. rewrite H2 in WS. exact WS. }
    rewrite R, firstn_skipn, B3. f_equal. destruct (app_split a (reg i r) 8 G1) as (F1 & F2). rewrite F1, F2.
    f_equal. unfold set_reg. rewrite splice_splice.
    + unfold reg. rewrite splice_window; auto. lia.
    + unfold reg. rewrite length_window. lia.
    + lia.
Qed.

Lemma ustep_inv : forall n s s' t i, good n s -> 1 <= i <= n -> ustep (Some s) (t, i) = Some s' ->
  good n s' /\ wstep (Some s') (t, i) = Some s.
Proof.
  intros n [a r] s' t i G Hi H.
  assert (G': good n (xor_bytes a (be_bytes 8 (N.of_nat t)), r)).
  { destruct G as (G1 & G2 & G3 & G4). cbn [fst snd] in *. split; [|split; [|split]]; cbn [fst snd]; auto.
    - rewrite length_xor; rewrite ?length_be_bytes; auto.
    - apply bytes_ok_xor; auto. apply bytes_ok_be_bytes. }
  pose proof (step_block n _ r i G' Hi) as (SB1 & SB2).
  destruct G as (G1 & G2 & G3 & G4). destruct G' as (G5 & _). cbn [fst snd] in *. cbn [rfc_wrap_step rfc_unwrap_step fst snd] in H.
  destruct (dec (xor_bytes a (be_bytes 8 (N.of_nat t)) ++ reg i r)) as [b|] eqn:E; [|discriminate]. injection H as <-.
  destruct (bc_dec _ _ BC _ _ SB1 SB2 E) as (B1 & B2 & B3). destruct (halves b B1) as (H1 & H2).
  assert (RNG: 8 * (i - 1) + length (skipn 8 b) <= length r) by lia.
  split.
  - split; [|split; [|split]]; cbn [fst snd]; auto.
    + apply bytes_ok_firstn; exact B2.
    + unfold set_reg. rewrite length_splice; auto.
    + unfold set_reg. apply bytes_ok_splice; auto. apply bytes_ok_skipn; exact B2.
  - cbn [rfc_wrap_step fst snd].
    assert (R: reg i (set_reg i (skipn 8 b) r) = skipn 8 b).
    { unfold reg, set_reg. pose proof (window_splice r (8 * (i - 1)) (skipn 8 b) RNG) as WS. rewrite H2 in WS. exact WS. }
    rewrite R, firstn_skipn, B3. f_equal. destruct (app_split _ (reg i r) 8 G5) as (F1 & F2). rewrite F1, F2.
    rewrite xor_xor by now rewrite length_be_bytes, G1.
    f_equal. unfold set_reg. rewrite splice_splice.
    + unfold reg. rewrite splice_window; auto. lia.
    + unfold reg. rewrite length_window. lia.
    + lia.
Qed.

Definition in_steps (n : nat) (l : list (nat * nat)) : Prop := Forall (fun ti => 1 <= snd ti <= n) l.

Lemma wrap_unwrap : forall n l s s', good n s -> in_steps n l -> fold_left wstep l (Some s) = Some s' ->
  good n s' /\ fold_left ustep (rev l) (Some s') = Some s.
Proof.
  intros n. induction l as [|[t i] l IH]; intros s s' G F H; [cbn in H; injection H as <-; auto|].
  apply Forall_cons_iff in F. destruct F as (F1 & F). cbn [snd] in F1. cbn [fold_left] in H.
  destruct (wstep (Some s) (t, i)) as [s1|] eqn:E; [|rewrite fold_none_w in H; discriminate].
  destruct (wstep_inv n s s1 t i G F1 E) as (G1 & U). destruct (IH s1 s' G1 F H) as (G2 & U2).
  split; auto. cbn [rev]. rewrite fold_left_app, U2. exact U.
Qed.

Lemma unwrap_wrap : forall n l s s', good n s -> in_steps n l -> fold_left ustep (rev l) (Some s) = Some s' ->
  good n s' /\ fold_left wstep l (Some s') = Some s.
Proof.
  intros n. induction l as [|[t i] l IH] using rev_ind; intros s s' G F H; [cbn in H; injection H as <-; auto|].
  apply Forall_app in F. destruct F as (F & F1). apply Forall_cons_iff in F1. destruct F1 as (F1 & _). cbn [snd] in F1.
  rewrite rev_app_distr in H. cbn [rev app fold_left] in H.
  destruct (ustep (Some s) (t, i)) as [s1|] eqn:E; [|rewrite fold_none_u in H; discriminate].
  destruct (ustep_inv n s s1 t i G F1 E) as (G1 & U). destruct (IH s1 s' G1 F H) as (G2 & U2).
  split; auto. rewrite fold_left_app, U2. exact U.
Qed.

Lemma in_rfc_steps : forall n, in_steps n (rfc_steps n).
Proof.
  intros n. unfold in_steps, rfc_steps. apply Forall_forall. intros [t i] H. apply in_flat_map in H.
  destruct H as (j & _ & H). apply in_map_iff in H. destruct H as (k & E & H). injection E as <- <-.
  apply in_seq in H. cbn [snd]. lia.
Qed.

(** * The loops of the code are these steps *)
Definition round (n j lo cnt : nat) : list (nat * nat) := map (fun i => (n * j + i, i)) (seq lo cnt).

Lemma wrap_inner_spec : forall n j x y, length x = 8 -> (N.of_nat (n * j + n) < 2 ^ 64)%N ->
  forall cnt i a r, 1 <= i -> i + cnt = S n -> good n (a, r) ->
  wrap_inner enc cnt i a (be_bytes 8 (N.of_nat (n * j + i - 1))) (x ++ r ++ y) =
  match fold_left wstep (round n j i cnt) (Some (a, r)) with
  | None => None
  | Some (a', r') => Some (a', be_bytes 8 (N.of_nat (n * j + n)), x ++ r' ++ y)
  end.
Proof.
  intros n j x y Hx HB. induction cnt as [|cnt IH]; intros i a r Hi Hc G.
  - cbn. do 5 f_equal. lia.
  - cbn [wrap_inner round seq map fold_left].
    replace (i * BLOCK) with (length x + 8 * (i - 1)) by (unfold BLOCK; lia).
    assert (LR: length r = 8 * n) by apply G.
    assert (W: window (length x + 8 * (i - 1)) BLOCK (x ++ r ++ y) = reg i r)
      by (apply window_mid; unfold BLOCK; lia). rewrite W.
    assert (Hi2: 1 <= i <= n) by lia.
    destruct (wstep (Some (a, r)) (n * j + i, i)) as [s1|] eqn:E.
    + destruct (wstep_inv n (a, r) s1 (n * j + i) i G Hi2 E) as (G1 & _).
      cbn [rfc_wrap_step fst snd] in E.
      destruct (enc (a ++ reg i r)) as [b|] eqn:EB; [|discriminate]. injection E as <-.
      destruct (step_block n a r i G Hi2) as (SB1 & SB2).
      destruct (bc_enc _ _ BC _ _ SB1 SB2 EB) as (B1 & B2 & B3). destruct (halves b B1) as (H1 & H2).
      assert (T: fst (increment_byte_array (be_bytes 8 (N.of_nat (n * j + i - 1))) false) = be_bytes 8 (N.of_nat (n * j + i))).
      { rewrite increment_counter by lia. f_equal. lia. }
      cbn zeta. rewrite T. unfold BLOCK. rewrite splice_mid by lia.
      replace (be_bytes 8 (N.of_nat (n * j + i))) with (be_bytes 8 (N.of_nat (n * j + S i - 1))) at 2 by (do 2 f_equal; lia).
      apply IH; auto; lia.
    + rewrite fold_none_w. cbn [rfc_wrap_step fst snd] in E.
      destruct (enc (a ++ reg i r)); [discriminate|reflexivity].
Qed.

Lemma round_steps : forall n j, in_steps n (round n j 1 n).
Proof.
  intros n j. apply Forall_forall. intros [t i] H. apply in_map_iff in H. destruct H as (k & E & H). injection E as <- <-.
  apply in_seq in H. cbn [snd]. lia.
Qed.

Lemma wrap_outer_spec : forall n x y, length x = 8 -> (N.of_nat (n * 6) < 2 ^ 64)%N ->
  forall rounds j a r, rounds + j = 6 -> good n (a, r) ->
  wrap_outer enc rounds n a (be_bytes 8 (N.of_nat (n * j))) (x ++ r ++ y) =
  match fold_left wstep (flat_map (fun j => round n j 1 n) (seq j rounds)) (Some (a, r)) with
  | None => None
  | Some (a', r') => Some (a', be_bytes 8 (N.of_nat (n * 6)), x ++ r' ++ y)
  end.
Proof.
  intros n x y Hx HB. induction rounds as [|rounds IH]; intros j a r Hj G.
  - cbn [wrap_outer seq flat_map fold_left]. replace j with 6 by lia. reflexivity.
  - cbn [wrap_outer seq flat_map]. rewrite fold_left_app.
    pose proof (wrap_inner_spec n j x y Hx ltac:(nia) n 1 a r (le_n 1) eq_refl G) as W.
    replace (n * j + 1 - 1) with (n * j) in W by lia. rewrite W.
    destruct (fold_left wstep (round n j 1 n) (Some (a, r))) as [[a' r']|] eqn:E; [|now rewrite fold_none_w].
    replace (n * j + n) with (n * S j) by lia. apply IH; [lia|].
    apply (wrap_unwrap n _ _ _ G (round_steps n j) E).
Qed.

Local Transparent be_bytes xor_bytes firstn skipn.
Lemma data_wrap_spec : forall iv x r y, length iv = 8 -> bytes_ok iv -> length x = 8 -> bytes_ok r ->
  length r mod 8 = 0 -> (N.of_nat (length r) < 2 ^ 32)%N ->
  data_wrap enc iv (x ++ r ++ y) (length r) =
  match rfc_wrap enc iv r with None => None | Some (a, r') => Some (a ++ r' ++ y) end.
Proof.
  intros iv x r y Hi Hib Hx Hr Hm HB. unfold data_wrap, rfc_wrap.
  pose proof (Nat.div_mod (length r) 8 ltac:(lia)) as DM.
  change (length r / BLOCK) with (length r / 8).
  set (n := length r / 8) in *.
  assert (G: good n (iv, r)) by (split; [|split; [|split]]; cbn [fst snd]; auto; lia).
  assert (HB2: (N.of_nat (n * 6) < 2 ^ 64)%N) by (change (2 ^ 64)%N with (2 ^ 32 * 2 ^ 32)%N; lia).
  pose proof (wrap_outer_spec n x y Hx HB2 6 0 iv r eq_refl G) as W.
  replace (n * 0) with 0 in W by lia. change (be_bytes 8 (N.of_nat 0)) with (repeat 0%N 8) in W.
  change ITERATIONS with 6. rewrite W. change (flat_map (fun j => round n j 1 n) (seq 0 6)) with (rfc_steps n).
  destruct (fold_left wstep (rfc_steps n) (Some (iv, r))) as [[a' r']|] eqn:E; auto.
  destruct (wrap_unwrap n _ _ _ G (in_rfc_steps n) E) as ((L & _) & _). cbn [fst] in L.
  unfold splice. cbn [firstn app]. rewrite skipn_app_ge by lia. now rewrite Hx, L, Nat.sub_diag.
Qed.

Local Opaque be_bytes xor_bytes firstn skipn.
Lemma unwrap_inner_spec : forall n j y, (N.of_nat (n * j + n) < 2 ^ 64)%N ->
  forall cnt a r, cnt <= n -> good n (a, r) ->
  unwrap_inner dec cnt a (be_bytes 8 (N.of_nat (n * j + cnt))) (r ++ y) =
  match fold_left ustep (rev (round n j 1 cnt)) (Some (a, r)) with
  | None => None
  | Some (a', r') => Some (a', be_bytes 8 (N.of_nat (n * j)), r' ++ y)
  end.
Proof.
  intros n j y HB. induction cnt as [|cnt IH]; intros a r Hc G.
  - cbn. now rewrite Nat.add_0_r.
  - assert (RV: rev (round n j 1 (S cnt)) = (n * j + S cnt, S cnt) :: rev (round n j 1 cnt)).
    { unfold round. rewrite seq_S, map_app, rev_app_distr. reflexivity. }
    rewrite RV. cbn [unwrap_inner fold_left].
    assert (LR: length r = 8 * n) by apply G.
    assert (W: window (cnt * BLOCK) BLOCK (r ++ y) = reg (S cnt) r).
    { replace (cnt * BLOCK) with (length (@nil N) + 8 * (S cnt - 1)) by (unfold BLOCK; cbn [length]; lia).
      apply (window_mid N []); unfold BLOCK; lia. }
    rewrite W. assert (Hi2: 1 <= S cnt <= n) by lia.
    destruct (ustep (Some (a, r)) (n * j + S cnt, S cnt)) as [s1|] eqn:E.
    + destruct (ustep_inv n (a, r) s1 _ _ G Hi2 E) as (G1 & _). cbn [rfc_unwrap_step fst snd] in E.
      destruct (dec (xor_bytes a (be_bytes 8 (N.of_nat (n * j + S cnt))) ++ reg (S cnt) r)) as [b|] eqn:EB; [|discriminate].
      injection E as <-. 
      assert (L2: length (skipn 8 b) = 8).
      { assert (SB: length (xor_bytes a (be_bytes 8 (N.of_nat (n * j + S cnt))) ++ reg (S cnt) r) = 16 /\
                   bytes_ok (xor_bytes a (be_bytes 8 (N.of_nat (n * j + S cnt))) ++ reg (S cnt) r)).
        { apply (step_block n); auto. destruct G as (A1 & A2 & A3 & A4). cbn [fst snd] in *.
          split; [|split; [|split]]; cbn [fst snd]; auto.
          - rewrite length_xor; rewrite ?length_be_bytes; auto.
          - apply bytes_ok_xor; auto. apply bytes_ok_be_bytes. }
        destruct SB as (SB1 & SB2). destruct (bc_dec _ _ BC _ _ SB1 SB2 EB) as (B1 & _). now apply halves. }
      assert (T: fst (decrement_byte_array (be_bytes 8 (N.of_nat (n * j + S cnt))) false) = be_bytes 8 (N.of_nat (n * j + cnt))).
      { replace (N.of_nat (n * j + S cnt)) with (N.of_nat (n * j + cnt) + 1)%N by lia. apply decrement_counter. lia. }
      rewrite T. replace (cnt * BLOCK) with (length (@nil N) + 8 * (S cnt - 1)) by (unfold BLOCK; cbn [length]; lia).
      unfold BLOCK.
      pose proof (splice_mid N [] r y (skipn 8 b) (8 * (S cnt - 1)) ltac:(lia)) as SM. cbn [app] in SM. rewrite SM.
      apply IH; auto; lia.
    + rewrite fold_none_u. cbn [rfc_unwrap_step fst snd] in E.
      destruct (dec _); [discriminate|reflexivity].
Qed.

Lemma rounds_rev : forall n k, rev (flat_map (fun j => round n j 1 n) (seq 0 (S k))) =
  rev (round n k 1 n) ++ rev (flat_map (fun j => round n j 1 n) (seq 0 k)).
Proof.
  intros n k. rewrite seq_S. cbn [Nat.add]. rewrite flat_map_app, rev_app_distr. cbn [flat_map]. now rewrite app_nil_r.
Qed.

Lemma unwrap_outer_spec : forall n y, forall rounds a r, (N.of_nat (n * rounds) < 2 ^ 64)%N -> good n (a, r) ->
  unwrap_outer dec rounds n a (be_bytes 8 (N.of_nat (n * rounds))) (r ++ y) =
  match fold_left ustep (rev (flat_map (fun j => round n j 1 n) (seq 0 rounds))) (Some (a, r)) with
  | None => None
  | Some (a', r') => Some (a', be_bytes 8 0, r' ++ y)
  end.
Proof.
  intros n y. induction rounds as [|k IH]; intros a r HB G.
  - cbn [unwrap_outer seq flat_map rev fold_left]. replace (n * 0) with 0 by lia. reflexivity.
  - rewrite rounds_rev, fold_left_app. cbn [unwrap_outer].
    replace (n * S k) with (n * k + n) in * by lia.
    rewrite (unwrap_inner_spec n k y HB n a r (le_n n) G).
    destruct (fold_left ustep (rev (round n k 1 n)) (Some (a, r))) as [[a' r']|] eqn:E; [|now rewrite fold_none_u].
    apply IH; [lia|]. apply (unwrap_wrap n _ _ _ G (round_steps n k) E).
Qed.

Local Transparent be_bytes xor_bytes firstn skipn.
Lemma data_unwrap_spec : forall c0 c d, length c0 = 8 -> bytes_ok c0 -> bytes_ok c -> length c mod 8 = 0 ->
  length c <= length d -> (N.of_nat (length c) < 2 ^ 32)%N ->
  data_unwrap dec (c0 ++ c) d =
  match rfc_unwrap dec c0 c with None => None | Some (a, r) => Some (a, r ++ skipn (length c) d) end.
Proof.
  intros c0 c d H0 H0b Hc Hm Hd HB. unfold data_unwrap, rfc_unwrap.
  destruct (app_split c0 c 8 H0) as (F1 & F2). unfold BLOCK. rewrite F1, F2, app_length, H0.
  replace (8 + length c - 8) with (length c) by lia.
  pose proof (Nat.div_mod (length c) 8 ltac:(lia)) as DM. set (n := length c / 8) in *.
  assert (G: good n (c0, c)) by (split; [|split; [|split]]; cbn [fst snd]; auto; lia).
  assert (HB2: (N.of_nat (n * 6) < 2 ^ 64)%N) by (change (2 ^ 64)%N with (2 ^ 32 * 2 ^ 32)%N; lia).
  pose proof (unwrap_outer_spec n (skipn (length c) d) 6 c0 c HB2 G) as U. change ITERATIONS with 6.
  unfold splice. cbn [firstn app Nat.add]. rewrite U.
  change (flat_map (fun j => round n j 1 n) (seq 0 6)) with (rfc_steps n).
  destruct (fold_left ustep (rev (rfc_steps n)) (Some (c0, c))) as [[a' r']|]; auto.
Qed.

Lemma rfc_wrap_inv : forall iv p a r, length iv = 8 -> bytes_ok iv -> bytes_ok p -> length p mod 8 = 0 ->
  rfc_wrap enc iv p = Some (a, r) ->
  length a = 8 /\ bytes_ok a /\ length r = length p /\ bytes_ok r /\ rfc_unwrap dec a r = Some (iv, p).
Proof.
  intros iv p a r H1 H2 H3 H4 H. unfold rfc_wrap, rfc_unwrap in *.
  pose proof (Nat.div_mod (length p) 8 ltac:(lia)) as DM. set (n := length p / 8) in *.
  assert (G: good n (iv, p)) by (split; [|split; [|split]]; cbn [fst snd]; auto; lia).
  destruct (wrap_unwrap n _ _ _ G (in_rfc_steps n) H) as ((A1 & A2 & A3 & A4) & U). cbn [fst snd] in *.
  splits; auto; [lia|]. replace (length r / 8) with n; auto. rewrite A3, Nat.mul_comm. symmetry. apply Nat.div_mul. lia.
Qed.

Lemma rfc_unwrap_inv : forall c0 c a p, length c0 = 8 -> bytes_ok c0 -> bytes_ok c -> length c mod 8 = 0 ->
  rfc_unwrap dec c0 c = Some (a, p) ->
  length a = 8 /\ bytes_ok a /\ length p = length c /\ bytes_ok p /\ rfc_wrap enc a p = Some (c0, c).
Proof.
  intros c0 c a p H1 H2 H3 H4 H. unfold rfc_wrap, rfc_unwrap in *.
  pose proof (Nat.div_mod (length c) 8 ltac:(lia)) as DM. set (n := length c / 8) in *.
  assert (G: good n (c0, c)) by (split; [|split; [|split]]; cbn [fst snd]; auto; lia).
  destruct (unwrap_wrap n _ _ _ G (in_rfc_steps n) H) as ((A1 & A2 & A3 & A4) & U). cbn [fst snd] in *.
  splits; auto; [lia|]. replace (length p / 8) with n; auto. rewrite A3, Nat.mul_comm. symmetry. apply Nat.div_mul. lia.
Qed.
End Cipher.
