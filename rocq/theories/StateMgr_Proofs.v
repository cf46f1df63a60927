(** Proofs about the non-volatile state manager, part 1: reading one entry. *)
From Coq Require Import List NArith Lia Bool Arith ZifyBool ZifyNat ZifyN.
From Verif Require Import Base Flash_Base StateMgr_Model StateMgr_Spec.
Import ListNotations.
Local Open Scope N_scope.

Definition mism (e : entry) (i : N) : bool :=
  let '(e0, e1, e2, _) := e in
  negb (Bool.eqb (N.testbit e0 i) (N.testbit e1 i) && Bool.eqb (N.testbit e0 i) (N.testbit e2 i)).

Definition rbit (e : entry) (i : N) : bool :=
  let '(e0, e1, e2, _) := e in
  let b0 := N.testbit e0 i in
  let b1 := N.testbit e1 i in
  let b2 := N.testbit e2 i in
  if Bool.eqb b0 b1 && Bool.eqb b0 b2 then b0
  else if negb (i =? 6) && negb (i =? 7) then (if Bool.eqb b0 b1 || Bool.eqb b0 b2 then b0 else b1)
  else false.

Definition put_bit (e : entry) (nv i : N) : N := N.lor nv (N.shiftl (N.b2n (rbit e i)) i).

Lemma read_bit_split : forall e nv err r i,
  read_bit e (nv, err, r) i = (put_bit e nv i, err || mism e i, r || ((i =? 6) && mism e i)).
Proof.
  intros [[[e0 e1] e2] e3] nv err r i. unfold read_bit, put_bit, rbit, mism.
  destruct (Bool.eqb (N.testbit e0 i) (N.testbit e1 i) && Bool.eqb (N.testbit e0 i) (N.testbit e2 i)).
  - cbn [negb]. now rewrite !andb_false_r, !orb_false_r.
  - cbn [negb]. rewrite !orb_true_r, !andb_true_r.
    destruct (N.eqb_spec i 6); destruct (N.eqb_spec i 7); cbn [negb andb N.b2n];
      rewrite ?N.shiftl_0_l, ?N.lor_0_r, ?orb_true_r, ?orb_false_r; auto.
Qed.

Lemma fold_split : forall e l nv err r,
  fold_left (read_bit e) l (nv, err, r) =
  (fold_left (put_bit e) l nv, err || existsb (mism e) l,
   r || existsb (fun i => (i =? 6) && mism e i) l).
Proof.
  intros e. induction l as [|i l IH]; intros nv err r.
  - cbn. now rewrite !orb_false_r.
  - cbn [fold_left existsb]. rewrite read_bit_split, IH. now rewrite !orb_assoc.
Qed.

Lemma put_bit_spec : forall e nv i k,
  N.testbit (put_bit e nv i) k = N.testbit nv k || ((i =? k) && rbit e i).
Proof.
  intros. unfold put_bit. rewrite N.lor_spec. f_equal.
  destruct (N.eqb_spec i k) as [->|H].
  - rewrite N.shiftl_spec_high', N.sub_diag by lia. cbn. now destruct (rbit e k).
  - destruct (N.lt_ge_cases k i).
    + rewrite N.shiftl_spec_low by auto. reflexivity.
    + rewrite N.shiftl_spec_high' by auto. cbn [andb].
      destruct (rbit e i); cbn [N.b2n]; [|apply N.bits_0].
      change 1 with (2^0). apply N.pow2_bits_false. lia.
Qed.

Lemma fold_put_spec : forall e l nv k,
  N.testbit (fold_left (put_bit e) l nv) k
  = N.testbit nv k || existsb (fun i => (i =? k) && rbit e i) l.
Proof.
  intros e. induction l as [|i l IH]; intros nv k; cbn [fold_left existsb].
  - now rewrite orb_false_r.
  - rewrite IH, put_bit_spec. now rewrite orb_assoc.
Qed.

Definition idx16 : list N := map N.of_nat (seq 0 16).
Definition raw_val (e : entry) : N := fold_left (put_bit e) idx16 0.
Definition rs_val (e : entry) : N := fst (fst (read_state_bits e false)).
Definition rs_err (e : entry) : bool := existsb (mism e) idx16.

Lemma idx16_in : forall k, k < 16 -> In k idx16.
Proof.
  intros. unfold idx16. apply in_map_iff. exists (N.to_nat k). split; [lia|].
  apply in_seq. lia.
Qed.

Lemma in_idx16 : forall k, In k idx16 -> k < 16.
Proof.
  intros k H. unfold idx16 in H. apply in_map_iff in H. destruct H as (x & <- & Hx).
  apply in_seq in Hx. lia.
Qed.

Lemma raw_val_spec : forall e k, N.testbit (raw_val e) k = (k <? 16) && rbit e k.
Proof.
  intros. unfold raw_val. rewrite fold_put_spec. rewrite N.bits_0. cbn [orb].
  destruct (N.ltb_spec k 16).
  - cbn [andb]. destruct (rbit e k) eqn:R.
    + apply existsb_exists. exists k. split; [now apply idx16_in|]. rewrite N.eqb_refl. now rewrite R.
    + destruct (existsb _ _) eqn:E; auto. apply existsb_exists in E.
      destruct E as (x & _ & Hx). apply andb_prop in Hx. destruct Hx as [Hx Hr].
      apply N.eqb_eq in Hx. subst. congruence.
  - cbn [andb]. destruct (existsb _ _) eqn:E; auto. apply existsb_exists in E.
    destruct E as (x & Hx & Hk). apply in_idx16 in Hx. lia.
Qed.

Lemma testbit_high : forall v k, v < 65536 -> 16 <= k -> N.testbit v k = false.
Proof.
  intros. destruct (N.eq_dec v 0) as [->|]; [apply N.bits_0|].
  apply N.bits_above_log2. assert (N.log2 v < 16); [|lia].
  apply N.log2_lt_pow2; [lia|]. exact H.
Qed.

Lemma lt_by_bits : forall v, (forall k, 16 <= k -> N.testbit v k = false) -> v < 65536.
Proof.
  intros v H. destruct (N.eq_dec v 0) as [->|Hz]; [reflexivity|].
  change 65536 with (2 ^ 16). apply N.log2_lt_pow2; [lia|].
  destruct (N.lt_ge_cases (N.log2 v) 16); auto.
  specialize (H _ H0). rewrite N.bit_log2 in H by auto. discriminate.
Qed.

Lemma raw_val_lt : forall e, raw_val e < 65536.
Proof. intros. apply lt_by_bits. intros. rewrite raw_val_spec. destruct (N.ltb_spec k 16); [lia|auto]. Qed.

(** Shape of the result of reading an entry. *)
Lemma read_state_bits_eq : forall e r, exists rf,
  read_state_bits e r = (rs_val e, rs_err e, r || rf).
Proof.
  intros e r. unfold rs_val, read_state_bits. fold idx16. rewrite !fold_split. fold (raw_val e).
  destruct e as [[[e0 e1] e2] e3].
  set (e := (e0, e1, e2, e3)).
  destruct ((raw_val e =? 65535) && negb (e3 =? 65535)).
  - exists true. cbn [fst orb]. now rewrite orb_true_r.
  - eexists. cbn [fst orb]. reflexivity.
Qed.

Lemma bits_65535 : forall k, N.testbit 65535 k = (k <? 16).
Proof.
  intros. change 65535 with (N.ones 16). destruct (N.ltb_spec k 16).
  - now apply N.ones_spec_low.
  - now apply N.ones_spec_high.
Qed.

Lemma land_192_zero : forall v, N.land v (SINGLE_BYTE_STATE + MULTI_BYTE_STATE) =? 0 =
  negb (N.testbit v 6) && negb (N.testbit v 7).
Proof.
  intros. change (SINGLE_BYTE_STATE + MULTI_BYTE_STATE) with 192.
  destruct (N.eqb_spec (N.land v 192) 0) as [E|E].
  - assert (A: N.testbit (N.land v 192) 6 = false) by (rewrite E; apply N.bits_0).
    assert (B: N.testbit (N.land v 192) 7 = false) by (rewrite E; apply N.bits_0).
    rewrite N.land_spec in A, B. change (N.testbit 192 6) with true in A.
    change (N.testbit 192 7) with true in B. rewrite andb_true_r in A, B. now rewrite A, B.
  - destruct (N.testbit v 6) eqn:A; destruct (N.testbit v 7) eqn:B; auto.
    exfalso. apply E. apply N.bits_inj. intro k. rewrite N.land_spec, N.bits_0.
    destruct (N.eq_dec k 6) as [->|]; [now rewrite A|].
    destruct (N.eq_dec k 7) as [->|]; [now rewrite B|].
    assert (N.testbit 192 k = false); [|rewrite H; apply andb_false_r].
    change 192 with (N.lor (N.shiftl 1 6) (N.shiftl 1 7)). rewrite N.lor_spec, !N.shiftl_1_l.
    rewrite !N.pow2_bits_false by auto. reflexivity.
Qed.

Lemma is_single_bit : forall v, is_single v = N.testbit v 6.
Proof.
  intros. unfold is_single, SINGLE_BYTE_STATE.
  destruct (N.eqb_spec (N.land v 64) 0) as [E|E]; cbn [negb].
  - assert (A: N.testbit (N.land v 64) 6 = false) by (rewrite E; apply N.bits_0).
    rewrite N.land_spec in A. change (N.testbit 64 6) with true in A. now rewrite andb_true_r in A.
  - destruct (N.testbit v 6) eqn:A; auto. exfalso. apply E. apply N.bits_inj. intro k.
    rewrite N.land_spec, N.bits_0. destruct (N.eq_dec k 6) as [->|]; [now rewrite A|].
    change 64 with (2^6). rewrite N.pow2_bits_false by auto. apply andb_false_r.
Qed.

(** Value read back, bit by bit, when the entry does not look blank. *)
Lemma rs_val_marked : forall e0 e1 e2 e3,
  let e := (e0, e1, e2, e3) in
  rbit e 6 = false ->
  forall k, N.testbit (rs_val e) k = if k =? 7 then true else (k <? 16) && rbit e k.
Proof.
  intros e0 e1 e2 e3 e H6 k. unfold rs_val, read_state_bits. fold idx16. rewrite fold_split.
  fold (raw_val e).
  assert (raw_val e =? 65535 = false).
  { apply N.eqb_neq. intro E.
    assert (N.testbit (raw_val e) 6 = true) by (rewrite E; reflexivity).
    rewrite raw_val_spec, H6 in H. discriminate. }
  rewrite H. cbn [andb].
  change (N.testbit (if N.land (raw_val e) (SINGLE_BYTE_STATE + MULTI_BYTE_STATE) =? 0
     then N.lor (raw_val e) MULTI_BYTE_STATE else raw_val e) k = (if k =? 7 then true else (k <? 16) && rbit e k)).
  rewrite land_192_zero.
  rewrite (raw_val_spec e 6), H6. change (6 <? 16) with true. cbn [andb negb].
  rewrite (raw_val_spec e 7). change (7 <? 16) with true. cbn [andb].
  destruct (rbit e 7) eqn:E7; cbn [negb].
  - rewrite raw_val_spec. destruct (N.eqb_spec k 7) as [->|]; auto.
  - rewrite N.lor_spec, raw_val_spec. unfold MULTI_BYTE_STATE. change 128 with (2^7).
    destruct (N.eqb_spec k 7) as [->|Hk].
    + rewrite N.pow2_bits_true. now rewrite orb_true_r.
    + rewrite N.pow2_bits_false by auto. apply orb_false_r.
Qed.

(** C04, general form. *)
Lemma majority_general : forall s e0 e1 e2 e3,
  stored_form s ->
  (forall i, i < 16 -> i <> 6 -> i <> 7 ->
     (N.testbit e0 i = N.testbit s i /\ N.testbit e1 i = N.testbit s i) \/
     (N.testbit e0 i = N.testbit s i /\ N.testbit e2 i = N.testbit s i) \/
     (N.testbit e1 i = N.testbit s i /\ N.testbit e2 i = N.testbit s i)) ->
  ~ (N.testbit e0 6 = true /\ N.testbit e1 6 = true /\ N.testbit e2 6 = true) ->
  rs_val (e0, e1, e2, e3) = s.
Proof.
  intros s e0 e1 e2 e3 (Hlt & H7 & H6) Hmaj Hb6.
  assert (R6: rbit (e0, e1, e2, e3) 6 = false).
  { unfold rbit. change (6 =? 6) with true. cbn [negb andb].
    destruct (N.testbit e0 6), (N.testbit e1 6), (N.testbit e2 6); auto.
    exfalso. apply Hb6. auto. }
  apply N.bits_inj. intro k. rewrite rs_val_marked by auto.
  destruct (N.eqb_spec k 7) as [->|K7]; [auto|].
  destruct (N.ltb_spec k 16) as [L|L].
  - cbn [andb]. destruct (N.eq_dec k 6) as [->|K6]; [now rewrite R6, H6|].
    specialize (Hmaj k L K6 K7). unfold rbit.
    destruct (N.eqb_spec k 6); [contradiction|]. destruct (N.eqb_spec k 7); [contradiction|].
    cbn [negb andb].
    destruct (N.testbit e0 k), (N.testbit e1 k), (N.testbit e2 k), (N.testbit s k); cbn; auto;
      intuition congruence.
  - cbn [andb]. now rewrite testbit_high.
Qed.

Lemma majority_two : forall s e0 e1 e2 e3, stored_form s ->
  (e0 = s /\ e1 = s) \/ (e0 = s /\ e2 = s) \/ (e1 = s /\ e2 = s) ->
  rs_val (e0, e1, e2, e3) = s.
Proof.
  intros s e0 e1 e2 e3 Hs H. apply majority_general; auto.
  - intros. destruct H as [[-> ->]|[[-> ->]|[-> ->]]]; auto.
  - destruct Hs as (_ & _ & H6). intros (A & B & C).
    destruct H as [[-> ->]|[[-> ->]|[-> ->]]]; congruence.
Qed.

Lemma err_three : forall s e3, rs_err (s, s, s, e3) = false.
Proof.
  intros. unfold rs_err. destruct (existsb _ _) eqn:E; auto. apply existsb_exists in E.
  destruct E as (x & _ & H). unfold mism in H. rewrite !eqb_reflx in H. discriminate.
Qed.

Lemma store_word_form : forall v, v < 65536 -> stored_form (store_word v).
Proof.
  intros v H. unfold stored_form, store_word, SINGLE_BYTE_STATE, MULTI_BYTE_STATE.
  change 64 with (2^6). change 128 with (2^7). split; [|split].
  - apply lt_by_bits. intros k Hk. rewrite N.lor_spec, N.ldiff_spec, testbit_high by auto.
    rewrite !N.pow2_bits_false by lia. reflexivity.
  - rewrite N.lor_spec, N.pow2_bits_true. apply orb_true_r.
  - rewrite N.lor_spec, N.ldiff_spec, N.pow2_bits_true, N.pow2_bits_false by lia.
    now rewrite andb_false_r.
Qed.

Lemma store_word_same : forall v, same_state (store_word v) v.
Proof.
  intros v i H6 H7. unfold store_word, SINGLE_BYTE_STATE, MULTI_BYTE_STATE.
  change 64 with (2^6). change 128 with (2^7).
  rewrite N.lor_spec, N.ldiff_spec, !N.pow2_bits_false by auto.
  cbn [negb]. now rewrite andb_true_r, orb_false_r.
Qed.

Lemma stored_form_not_blank : forall s, stored_form s -> s <> 65535.
Proof. intros s (_ & _ & H) ->. discriminate. Qed.

Lemma rs_val_blank : rs_val (65535, 65535, 65535, 65535) = 65535.
Proof. vm_compute. reflexivity. Qed.
