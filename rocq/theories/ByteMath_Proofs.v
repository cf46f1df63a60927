From Coq Require Import List NArith ZArith Lia Bool Arith ZifyBool ZifyNat ZifyN.
From Verif Require Import Base ByteMath_Model ByteMath_Spec.
Import ListNotations.

Lemma byte_forall : forall (P : N -> bool),
  forallb P (map N.of_nat (seq 0 256)) = true -> forall b, byte_ok b -> P b = true.
Proof.
  intros. rewrite forallb_forall in H. apply H. apply in_map_iff.
  exists (N.to_nat b). split; [lia|]. apply in_seq. unfold byte_ok in H0. lia.
Qed.

(* ---- bit counting ---- *)

Lemma count_bits_S : forall f n, count_bits f (S n) = (if f 0 then 1 else 0) + count_bits (fun i => f (S i)) n.
Proof.
  intros. unfold count_bits. simpl. rewrite <- seq_shift.
  assert (length (filter f (map S (seq 0 n))) = length (filter (fun i => f (S i)) (seq 0 n))) as E.
  { clear. induction (seq 0 n); simpl; auto. destruct (f (S a)); simpl; auto. }
  destruct (f 0); simpl; auto.
Qed.

Lemma count_bits_ext : forall f g n, (forall i, i < n -> f i = g i) -> count_bits f n = count_bits g n.
Proof.
  intros. unfold count_bits. f_equal. apply filter_ext_in. intros. apply in_seq in H0. apply H. lia.
Qed.

Lemma count_bits_false : forall f n, (forall i, f i = false) -> count_bits f n = 0.
Proof.
  intros. unfold count_bits. induction (seq 0 n); simpl; auto. now rewrite H.
Qed.

Lemma count_bits_add : forall f a b, count_bits f (a + b) = count_bits f a + count_bits (fun i => f (a + i)) b.
Proof.
  intros f a. revert f. induction a; intros; [reflexivity|].
  replace (S a + b) with (S (a + b)) by lia. rewrite !count_bits_S.
  rewrite IHa. simpl. lia.
Qed.

Lemma testbit_shift1 : forall b i, N.testbit (N.shiftr b 1) (N.of_nat i) = N.testbit b (N.of_nat (S i)).
Proof. intros. rewrite N.shiftr_spec by lia. f_equal. lia. Qed.

Lemma testbit_0_odd : forall b, N.testbit b (N.of_nat 0) = N.odd b.
Proof. intros. change (N.of_nat 0) with 0%N. apply N.bit0_odd. Qed.

Lemma count_loop_nonneg : forall fuel byte stop num,
  count_set_bits_loop fuel byte (Z.of_nat stop) num =
  num + count_bits (fun i => N.testbit byte (N.of_nat i)) (Nat.min fuel stop).
Proof.
  induction fuel; intros; simpl count_set_bits_loop.
  - unfold count_bits; simpl; lia.
  - destruct (N.eqb_spec byte 0).
    + subst. cbn [negb andb]. rewrite count_bits_false; [lia|]. intros. apply N.bits_0.
    + destruct (Z.eqb_spec (Z.of_nat stop) 0); cbn [negb andb].
      * assert (stop = 0) by lia. subst. rewrite Nat.min_0_r. unfold count_bits; simpl; lia.
      * destruct stop; [lia|]. rewrite <- Nat.succ_min_distr, count_bits_S.
        rewrite testbit_0_odd.
        destruct (N.odd byte) eqn:O.
        -- replace (Z.of_nat (S stop) - 1)%Z with (Z.of_nat stop) by lia. rewrite IHfuel.
           rewrite (count_bits_ext _ (fun i => N.testbit byte (N.of_nat (S i)))); [lia|].
           intros; apply testbit_shift1.
        -- destruct (Z.ltb_spec (Z.of_nat (S stop)) 0); [lia|].
           replace (Z.of_nat (S stop) - 1)%Z with (Z.of_nat stop) by lia. rewrite IHfuel.
           rewrite (count_bits_ext _ (fun i => N.testbit byte (N.of_nat (S i)))); [lia|].
           intros; apply testbit_shift1.
Qed.

Lemma testbit_high : forall b i, byte_ok b -> 8 <= i -> N.testbit b (N.of_nat i) = false.
Proof.
  intros. destruct (N.eq_dec b 0); [subst; apply N.bits_0|].
  apply N.bits_above_log2. unfold byte_ok in H.
  assert (N.log2 b < 8)%N; [|lia]. apply N.log2_lt_pow2; [lia|]. change (2^8)%N with 256%N. lia.
Qed.

Lemma count_set_bits_before : forall byte index, byte_ok byte ->
  get_num_bits_set_before_index byte (N.of_nat index) =
  count_bits (fun i => N.testbit byte (N.of_nat i)) index.
Proof.
  intros. unfold get_num_bits_set_before_index, count_set_bits.
  replace (Z.of_N (N.of_nat index)) with (Z.of_nat index) by lia.
  rewrite count_loop_nonneg. rewrite Nat.add_0_l.
  destruct (Nat.le_gt_cases index 8); [f_equal; lia|].
  replace (Nat.min 8 index) with 8 by lia.
  replace index with (8 + (index - 8)) by lia. rewrite count_bits_add.
  rewrite (count_bits_false (fun i => N.testbit byte (N.of_nat (8 + i)))); [lia|].
  intros. apply testbit_high; auto. lia.
Qed.

Lemma count_set_bits_8 : forall byte,
  count_set_bits byte 8 = count_bits (fun i => N.testbit byte (N.of_nat i)) 8.
Proof.
  intros. unfold count_set_bits. change 8%Z with (Z.of_nat 8). rewrite count_loop_nonneg. reflexivity.
Qed.

Lemma arr_bit_cons_lo : forall b l i, i < 8 -> arr_bit (b :: l) i = N.testbit b (N.of_nat i).
Proof.
  intros. unfold arr_bit. rewrite Nat.div_small, Nat.mod_small by lia. reflexivity.
Qed.

Lemma arr_bit_cons_hi : forall b l i, arr_bit (b :: l) (8 + i) = arr_bit l i.
Proof.
  intros. unfold arr_bit.
  replace (8 + i) with (i + 1 * 8) by lia.
  rewrite Nat.div_add, Nat.mod_add by lia.
  replace (i / 8 + 1) with (S (i / 8)) by lia. reflexivity.
Qed.

Lemma num_bits_acc : forall l acc,
  fold_left (fun bits b => bits + count_set_bits b 8) l acc = acc + count_bits (arr_bit l) (8 * length l).
Proof.
  induction l; intros; simpl fold_left.
  - unfold count_bits; simpl; lia.
  - rewrite IHl, count_set_bits_8. simpl length.
    replace (8 * S (length l)) with (8 + 8 * length l) by lia.
    rewrite count_bits_add.
    rewrite (count_bits_ext (arr_bit (a :: l)) (fun i => N.testbit a (N.of_nat i)) 8)
      by (intros; apply arr_bit_cons_lo; auto).
    rewrite (count_bits_ext (fun i => arr_bit (a :: l) (8 + i)) (arr_bit l))
      by (intros; apply arr_bit_cons_hi).
    lia.
Qed.

Lemma num_bits_in_array_correct : forall l,
  get_num_bits_set_in_array l = count_bits (arr_bit l) (8 * length l).
Proof. intros. unfold get_num_bits_set_in_array. now rewrite num_bits_acc. Qed.

(* ---- contiguous runs ---- *)

Fixpoint lead (n : nat) (b : N) : nat :=
  match n with O => 0 | S m => if N.odd b then S (lead m (N.shiftr b 1)) else 0 end.

Lemma count_loop_stop0 : forall fuel byte num, count_set_bits_loop fuel byte 0 num = num.
Proof. destruct fuel; intros; simpl; auto. now rewrite andb_false_r. Qed.

Lemma count_loop_neg : forall fuel byte stop num, (stop < 0)%Z ->
  count_set_bits_loop fuel byte stop num = num + lead fuel byte.
Proof.
  induction fuel; intros; cbn [count_set_bits_loop lead].
  - lia.
  - destruct (N.eqb_spec byte 0).
    + subst. cbn. lia.
    + destruct (Z.eqb_spec stop 0); [lia|]. cbn [negb andb].
      destruct (N.odd byte) eqn:O.
      * rewrite IHfuel by lia. lia.
      * destruct (Z.ltb_spec stop 0); [|lia]. cbn [Z.sub]. 
        change (1 - 1)%Z with 0%Z. rewrite count_loop_stop0. lia.
Qed.

Lemma lead_run : forall n b, is_leading_run (fun i => N.testbit b (N.of_nat i)) n (lead n b).
Proof.
  induction n; intros; cbn [lead].
  - repeat split; try lia.
  - destruct (IHn (N.shiftr b 1)) as (L & T & F).
    destruct (N.odd b) eqn:O.
    + repeat split; [lia| |].
      * intros [|i] Hi; [now rewrite testbit_0_odd|]. rewrite <- testbit_shift1. apply T. lia.
      * intros. rewrite <- testbit_shift1. apply F. lia.
    + repeat split; [lia|lia|]. intros. now rewrite testbit_0_odd.
Qed.

Lemma lead_le : forall n b, lead n b <= n.
Proof. intros. apply lead_run. Qed.

Lemma contiguous_byte : forall b,
  is_leading_run (fun i => N.testbit b (N.of_nat i)) 8 (get_num_contiguous_bits_set b).
Proof.
  intros. unfold get_num_contiguous_bits_set, count_set_bits. rewrite count_loop_neg by lia.
  apply lead_run.
Qed.

Lemma contiguous_loop : forall l total,
  exists k, num_contiguous_loop l total = total + k /\ is_leading_run (arr_bit l) (8 * length l) k.
Proof.
  induction l; intros; cbn [num_contiguous_loop].
  - exists 0. simpl. repeat split; try lia.
  - assert (count_set_bits a (-1) = lead 8 a) as E
      by (unfold count_set_bits; rewrite count_loop_neg by lia; reflexivity).
    rewrite E. destruct (lead_run 8 a) as (L & T & F).
    destruct (Nat.eqb_spec (lead 8 a) 8).
    + destruct (IHl (total + lead 8 a)) as (k & K & (L' & T' & F')).
      exists (8 + k). rewrite K. split; [lia|].
      simpl length. repeat split; [lia| |].
      * intros. destruct (Nat.lt_ge_cases i 8).
        -- rewrite arr_bit_cons_lo by auto. apply T. lia.
        -- replace i with (8 + (i - 8)) by lia. rewrite arr_bit_cons_hi. apply T'. lia.
      * intros. rewrite arr_bit_cons_hi. apply F'. lia.
    + exists (lead 8 a). split; auto. simpl length. repeat split; [lia| |].
      * intros. rewrite arr_bit_cons_lo by lia. auto.
      * intros. rewrite arr_bit_cons_lo by lia. apply F. lia.
Qed.

Lemma contiguous_array : forall l,
  is_leading_run (arr_bit l) (8 * length l) (get_num_contiguous_bits_set_in_array l).
Proof.
  intros. unfold get_num_contiguous_bits_set_in_array.
  destruct (contiguous_loop l 0) as (k & K & R). rewrite K. exact R.
Qed.

Lemma leading_run_unique : forall f n k k', is_leading_run f n k -> is_leading_run f n k' -> k = k'.
Proof.
  intros f n k k' (L & T & F) (L' & T' & F').
  destruct (Nat.lt_trichotomy k k') as [H|[H|H]]; auto.
  - rewrite T' in F by auto. discriminate F. lia.
  - rewrite T in F' by auto. discriminate F'. lia.
Qed.

(* ---- bit operations ---- *)

Lemma shiftl1_testbit : forall k m, N.testbit (N.shiftl 1 k) m = (m =? k)%N.
Proof.
  intros. rewrite N.shiftl_1_l. destruct (N.eqb_spec m k).
  - subst. apply N.pow2_bits_true.
  - apply N.pow2_bits_false. auto.
Qed.

Lemma bit_mask_ok : forall len bit, bit < 8 * len ->
  get_bit_mask len bit = Some (bit / 8, N.shiftl 1 (N.of_nat (bit mod 8))).
Proof.
  intros. unfold get_bit_mask. destruct (Nat.leb_spec len (bit / 8)); auto.
  exfalso. assert (8 * (bit / 8) <= bit) by (apply Nat.mul_div_le; lia). lia.
Qed.

Lemma bit_mask_out : forall len bit, 8 * len <= bit -> get_bit_mask len bit = None.
Proof.
  intros. unfold get_bit_mask. destruct (Nat.leb_spec len (bit / 8)); auto.
  exfalso. pose proof (Nat.div_mod bit 8). pose proof (Nat.mod_upper_bound bit 8). lia.
Qed.

Lemma is_bit_set_correct : forall l bit, bit < 8 * length l ->
  is_bit_set_in_array l bit = Some (arr_bit l bit).
Proof.
  intros. unfold is_bit_set_in_array. rewrite bit_mask_ok by auto. f_equal. unfold arr_bit.
  set (x := nth (bit / 8) l 0%N). set (k := N.of_nat (bit mod 8)).
  destruct (N.eqb_spec (N.land x (N.shiftl 1 k)) 0); simpl.
  - symmetry. rewrite <- (N.bits_0 k), <- e, N.land_spec, shiftl1_testbit, N.eqb_refl.
    now rewrite andb_true_r.
  - symmetry. destruct (N.testbit x k) eqn:E; auto. exfalso. apply n.
    apply N.bits_inj. intro m. rewrite N.bits_0, N.land_spec, shiftl1_testbit.
    destruct (N.eqb_spec m k); [subst; now rewrite E|apply andb_false_r].
Qed.

Lemma divmod8_inj : forall i j, i / 8 = j / 8 -> i mod 8 = j mod 8 -> i = j.
Proof. intros. rewrite (Nat.div_mod i 8), (Nat.div_mod j 8) by lia. lia. Qed.

Lemma arr_bit_upd : forall l i byte v, byte < length l ->
  arr_bit (upd l byte v) i =
  if i / 8 =? byte then N.testbit v (N.of_nat (i mod 8)) else arr_bit l i.
Proof.
  intros. unfold arr_bit. destruct (Nat.eqb_spec (i / 8) byte).
  - rewrite e. now rewrite nth_upd_eq.
  - rewrite nth_upd_neq by auto. reflexivity.
Qed.

Lemma div8_lt : forall bit n, bit < 8 * n -> bit / 8 < n.
Proof. intros. apply Nat.div_lt_upper_bound; lia. Qed.

Lemma set_bit_correct : forall l bit, bit < 8 * length l ->
  exists l', set_bit_in_array l bit = (l', CM_OK) /\ length l' = length l /\
    forall i, arr_bit l' i = if i =? bit then true else arr_bit l i.
Proof.
  intros. unfold set_bit_in_array. rewrite bit_mask_ok by auto.
  eexists; split; [reflexivity|]. split; [apply length_upd|]. intros.
  rewrite arr_bit_upd by (apply div8_lt; auto).
  destruct (Nat.eqb_spec (i / 8) (bit / 8)).
  - rewrite N.lor_spec, shiftl1_testbit.
    destruct (Nat.eqb_spec i bit).
    + subst. rewrite N.eqb_refl. apply orb_true_r.
    + assert (i mod 8 <> bit mod 8) by (intro; apply n; apply divmod8_inj; auto).
      destruct (N.eqb_spec (N.of_nat (i mod 8)) (N.of_nat (bit mod 8))); [lia|].
      rewrite orb_false_r. unfold arr_bit. now rewrite e.
  - destruct (Nat.eqb_spec i bit); [subst; contradiction|reflexivity].
Qed.

Lemma clear_bit_correct : forall l bit, bit < 8 * length l ->
  exists l', clear_bit_in_array l bit = (l', CM_OK) /\ length l' = length l /\
    forall i, arr_bit l' i = if i =? bit then false else arr_bit l i.
Proof.
  intros. unfold clear_bit_in_array. rewrite bit_mask_ok by auto.
  eexists; split; [reflexivity|]. split; [apply length_upd|]. intros.
  rewrite arr_bit_upd by (apply div8_lt; auto).
  destruct (Nat.eqb_spec (i / 8) (bit / 8)).
  - rewrite N.land_spec, N.lxor_spec, shiftl1_testbit.
    assert (N.testbit 255 (N.of_nat (i mod 8)) = true) as T.
    { pose proof (Nat.mod_upper_bound i 8). change 255%N with (N.ones 8). apply N.ones_spec_low. lia. }
    rewrite T. destruct (Nat.eqb_spec i bit).
    + subst. rewrite N.eqb_refl. apply andb_false_r.
    + assert (i mod 8 <> bit mod 8) by (intro; apply n; apply divmod8_inj; auto).
      destruct (N.eqb_spec (N.of_nat (i mod 8)) (N.of_nat (bit mod 8))); [lia|].
      rewrite andb_true_r. unfold arr_bit. now rewrite e.
  - destruct (Nat.eqb_spec i bit); [subst; contradiction|reflexivity].
Qed.

Lemma set_bit_out : forall l bit, 8 * length l <= bit ->
  set_bit_in_array l bit = (l, CM_OUT_OF_RANGE).
Proof. intros. unfold set_bit_in_array. now rewrite bit_mask_out. Qed.

Lemma clear_bit_out : forall l bit, 8 * length l <= bit ->
  clear_bit_in_array l bit = (l, CM_OUT_OF_RANGE).
Proof. intros. unfold clear_bit_in_array. now rewrite bit_mask_out. Qed.

Lemma is_bit_out : forall l bit, 8 * length l <= bit -> is_bit_set_in_array l bit = None.
Proof. intros. unfold is_bit_set_in_array. now rewrite bit_mask_out. Qed.

Lemma set_bit_bytes_ok : forall l bit, bytes_ok l -> bytes_ok (fst (set_bit_in_array l bit)).
Proof.
  intros. unfold set_bit_in_array, get_bit_mask. destruct (_ <=? _) eqn:E; cbn [fst]; auto.
  apply Forall_upd; auto. unfold byte_ok.
  assert (byte_ok (nth (bit / 8) l 0%N)) as B.
  { apply Nat.leb_gt in E. unfold bytes_ok in H. rewrite Forall_forall in H. apply H.
    apply nth_In. auto. }
  pose proof (Nat.mod_upper_bound bit 8).
  set (x := nth (bit / 8) l 0%N) in *.
  assert (N.lor x (N.shiftl 1 (N.of_nat (bit mod 8))) <= 255)%N; [|lia].
  apply N.lt_succ_r. change (N.succ 255) with (2 ^ 8)%N.
  destruct (N.eq_dec (N.lor x (N.shiftl 1 (N.of_nat (bit mod 8)))) 0) as [Z|Z]; [rewrite Z; reflexivity|].
  apply N.log2_lt_pow2; [lia|]. rewrite N.log2_lor.
  apply N.max_lub_lt.
  - destruct (N.eq_dec x 0) as [->|]; [reflexivity|]. apply N.log2_lt_pow2; [lia|]. exact B.
  - rewrite N.shiftl_1_l, N.log2_pow2 by lia. lia.
Qed.

(* ---- set next bit ---- *)

Lemma set_next_bit_correct : forall l,
  let k := get_num_contiguous_bits_set_in_array l in
  (k < 8 * length l ->
    exists l', set_next_bit_in_array l = (l', CM_OK) /\ length l' = length l /\
      forall i, arr_bit l' i = if i =? k then true else arr_bit l i) /\
  (k = 8 * length l -> set_next_bit_in_array l = (l, CM_OUT_OF_RANGE)).
Proof.
  intros. split; intros; unfold set_next_bit_in_array.
  - apply set_bit_correct; auto.
  - apply set_bit_out. fold k. lia.
Qed.

Lemma contiguous_after_set : forall l l', length l' = length l ->
  get_num_contiguous_bits_set_in_array l < 8 * length l ->
  (forall i, arr_bit l' i = if i =? get_num_contiguous_bits_set_in_array l then true else arr_bit l i) ->
  get_num_contiguous_bits_set_in_array l < get_num_contiguous_bits_set_in_array l'.
Proof.
  intros. destruct (contiguous_array l) as (L & T & F). destruct (contiguous_array l') as (L' & T' & F').
  set (k := get_num_contiguous_bits_set_in_array l) in *.
  set (k' := get_num_contiguous_bits_set_in_array l') in *.
  destruct (Nat.lt_ge_cases k k'); auto. exfalso.
  assert (arr_bit l' k' = false) by (apply F'; lia).
  rewrite H1 in H3. destruct (Nat.eqb_spec k' k); [discriminate|].
  rewrite T in H3 by lia. discriminate.
Qed.

Lemma set_contiguous_terminates : forall fuel l par,
  8 * length l < fuel + get_num_contiguous_bits_set_in_array l ->
  exists l' st, set_contiguous_loop fuel l par = Some (l', st) /\ length l' = length l /\
    (forall i, arr_bit l i = true -> arr_bit l' i = true) /\
    (st = CM_OK -> get_num_contiguous_bits_set_in_array l' mod 2 <> par) /\
    (st <> CM_OK -> st = CM_OUT_OF_RANGE /\ get_num_contiguous_bits_set_in_array l' = 8 * length l).
Proof.
  induction fuel; intros; cbn [set_contiguous_loop].
  - destruct (contiguous_array l) as (L & _ & _). lia.
  - set (k := get_num_contiguous_bits_set_in_array l) in *.
    destruct (Nat.eqb_spec (k mod 2) par).
    + destruct (contiguous_array l) as (L & T & F). fold k in L, T, F.
      destruct (Nat.lt_ge_cases k (8 * length l)).
      * destruct (set_bit_correct l k H0) as (l' & E & LEN & B). rewrite E.
        pose proof (contiguous_after_set l l' LEN H0 B) as INC. fold k in INC.
        destruct (IHfuel l' par) as (l2 & st & E2 & LEN2 & MON & OK & BAD); [lia|].
        exists l2, st. rewrite E2. split; [reflexivity|]. split; [lia|]. split; [|split; [exact OK|]].
        -- intros. apply MON. rewrite B. destruct (i =? k); auto.
        -- intros. rewrite <- LEN. apply BAD; auto.
      * rewrite set_bit_out by lia. exists l, CM_OUT_OF_RANGE. repeat split; auto; try discriminate.
        fold k. lia.
    + exists l, CM_OK. repeat split; auto; congruence.
Qed.

(* ---- increment / decrement ---- *)

Lemma inc_carry_spec : forall i bytes b index, i < length bytes ->
  inc_carry bytes i = (b, index) ->
  index <= i /\ length b = length bytes /\
  b = firstn (S index) bytes ++ repeat 0%N (i - index) ++ skipn (S i) bytes /\
  (forall j, index < j <= i -> nth j bytes 0%N = 255%N) /\
  (index <> 0 -> nth index bytes 0%N <> 255%N).
Proof.
  induction i; intros; cbn [inc_carry] in H0.
  - inversion H0; subst. repeat split; auto; try lia.
    cbn [Nat.sub repeat]. rewrite app_nil_l. now rewrite firstn_skipn.
  - destruct (N.eqb_spec (nth (S i) bytes 0%N) 255).
    + apply IHi in H0; [|rewrite length_upd; lia].
      destruct H0 as (A & B & C & D & E). rewrite length_upd in B.
      split; [lia|]. split; [lia|]. split; [|split].
      * rewrite C. rewrite (upd_split bytes (S i)) by lia.
        rewrite firstn_app_le by (rewrite firstn_length; lia).
        rewrite firstn_firstn, Nat.min_l by lia. f_equal.
        replace (S i - index) with (S (i - index)) by lia.
        rewrite skipn_app_ge by (rewrite firstn_length; lia).
        rewrite firstn_length, Nat.min_l by lia. rewrite Nat.sub_diag.
        cbn [skipn repeat]. rewrite repeat_cons. rewrite <- app_assoc. reflexivity.
      * intros. destruct (Nat.eq_dec j (S i)); [subst; auto|].
        rewrite <- (D j) by lia. rewrite nth_upd_neq by lia. reflexivity.
      * intros. specialize (E H0). rewrite nth_upd_neq in E by lia. auto.
    + inversion H0; subst. repeat split; auto; try lia.
      rewrite Nat.sub_diag. simpl repeat. rewrite app_nil_l. now rewrite firstn_skipn.
Qed.

Lemma be_value_repeat0 : forall n, be_value (repeat 0%N n) = 0%N.
Proof.
  induction n; [reflexivity|]. cbn [repeat]. rewrite be_value_cons, IHn. lia.
Qed.

Lemma be_value_repeat255 : forall n, (be_value (repeat 255%N n) + 1 = 256 ^ N.of_nat n)%N.
Proof.
  induction n; [reflexivity|]. cbn [repeat]. rewrite be_value_cons, repeat_length.
  rewrite Nat2N.inj_succ, N.pow_succ_r'. lia.
Qed.

Lemma list_all_eq_repeat : forall (l : list N) v, (forall j, j < length l -> nth j l 0%N = v) ->
  l = repeat v (length l).
Proof.
  intros. apply nth_ext_len with (d := 0%N); [now rewrite repeat_length|].
  intros. rewrite H by auto. rewrite nth_indep with (d' := v) by (now rewrite repeat_length).
  now rewrite nth_repeat.
Qed.

Lemma split_at : forall (l : list N) i, i < length l ->
  l = firstn i l ++ nth i l 0%N :: skipn (S i) l.
Proof.
  induction l; destruct i; simpl; intros; try lia; auto. f_equal. apply IHl. lia.
Qed.

Lemma increment_correct : forall l roll, l <> [] -> bytes_ok l ->
  (be_value l + 1 < 256 ^ N.of_nat (length l))%N ->
  exists l', increment_byte_array l roll = (l', CM_OK) /\ length l' = length l /\ bytes_ok l' /\
    be_value l' = (be_value l + 1)%N.
Proof.
  intros l roll NE OK LT. unfold increment_byte_array. destruct l as [|h t]; [congruence|].
  assert (0 < length (h :: t)) as Pos by (simpl; lia).
  set (l := h :: t) in *. clearbody l.
  destruct (inc_carry l (length l - 1)) as [b index] eqn:E.
  assert (length l - 1 < length l) as Hlt by lia.
  destruct (inc_carry_spec _ _ _ _ Hlt E) as (A & B & C & D & F).
  rewrite skipn_all2 in C by lia. rewrite app_nil_r in C.
  assert (forall j, j <= index -> nth j b 0%N = nth j l 0%N) as Same.
  { intros. rewrite C. rewrite app_nth1 by (rewrite firstn_length; lia). apply nth_firstn. lia. }
  assert (skipn (S index) l = repeat 255%N (length l - 1 - index)) as Tail.
  { rewrite (list_all_eq_repeat (skipn (S index) l) 255%N).
    - rewrite skipn_length. f_equal. lia.
    - intros. rewrite nth_skipn. rewrite skipn_length in H. apply D. lia. }
  assert (be_value l = (be_value (firstn index l) * 256 ^ N.of_nat (S (length l - 1 - index)) +
     (nth index l 0 * 256 ^ N.of_nat (length l - 1 - index) + be_value (repeat 255 (length l - 1 - index))))%N) as V.
  { rewrite (split_at l index) at 1 by lia. rewrite be_value_app, be_value_cons, Tail.
    simpl length. rewrite repeat_length. reflexivity. }
  assert (nth index l 0%N <> 255%N) as N255.
  { destruct (Nat.eq_dec index 0); [|auto]. subst index. intro.
    rewrite H in V. simpl firstn in V.
    assert (l = repeat 255%N (length l)) as ALL.
    { rewrite (split_at l 0) at 1 by lia. rewrite Tail, H. simpl firstn. rewrite app_nil_l.
      replace (length l) with (S (length l - 1 - 0)) at 2 by lia. reflexivity. }
    pose proof (be_value_repeat255 (length l)) as R. rewrite <- ALL in R. lia. }
  destruct (Nat.eqb_spec index 0) as [I|I]; destruct (N.eqb_spec (nth 0 b 0%N) 255) as [Z|Z]; cbn [andb];
    try (exfalso; subst index; rewrite Same in Z by lia; contradiction).
  all: eexists; split; [reflexivity|]; split; [rewrite length_upd; lia|].
  all: assert (byte_ok (nth index l 0%N)) as BO by (unfold bytes_ok in OK; rewrite Forall_forall in OK; apply OK; apply nth_In; lia).
  all: unfold byte_ok in BO.
  all: assert (upd b index ((nth index b 0 + 1) mod 256)%N =
         firstn index l ++ (nth index l 0 + 1)%N :: repeat 0%N (length l - 1 - index)) as U.
  1,3,5: rewrite Same by lia; rewrite N.mod_small by lia; rewrite C;
    rewrite upd_app_l by (rewrite firstn_length; lia);
    rewrite (split_at (firstn (S index) l) index) by (rewrite firstn_length; lia);
    rewrite upd_app_r by (rewrite firstn_length; lia);
    rewrite firstn_length, Nat.min_l by (rewrite firstn_length; lia);
    rewrite Nat.sub_diag; cbn [upd];
    rewrite firstn_firstn, Nat.min_l by lia;
    rewrite skipn_all2 by (rewrite firstn_length; lia);
    rewrite <- app_assoc; reflexivity.
  all: rewrite U; split.
  1,3,5: apply Forall_app; split; [apply Forall_firstn; auto|]; constructor; [unfold byte_ok; lia|];
     apply Forall_forall; intros x Hx; apply repeat_spec in Hx; subst; reflexivity.
  all: rewrite be_value_app, be_value_cons, be_value_repeat0; cbn [length]; rewrite repeat_length, V;
    pose proof (be_value_repeat255 (length l - 1 - index)); lia.
Qed.

Lemma increment_boundary : forall l roll, l <> [] -> bytes_ok l ->
  (be_value l + 1 = 256 ^ N.of_nat (length l))%N ->
  increment_byte_array l roll =
    if roll then (repeat 0%N (length l), CM_OK) else (l, CM_BOUNDARY_REACHED).
Proof.
  intros l roll NE OK EQ.
  assert (l = repeat 255%N (length l)) as ALL.
  { apply be_value_inj; auto.
    - now rewrite repeat_length.
    - apply Forall_forall; intros x Hx; apply repeat_spec in Hx; subst; reflexivity.
    - pose proof (be_value_repeat255 (length l)). lia. }
  unfold increment_byte_array. destruct l as [|h t]; [congruence|].
  assert (0 < length (h :: t)) as Pos by (simpl; lia).
  set (l := h :: t) in *. clearbody l.
  destruct (inc_carry l (length l - 1)) as [b index] eqn:E.
  assert (length l - 1 < length l) as Hlt by lia.
  destruct (inc_carry_spec _ _ _ _ Hlt E) as (A & B & C & D & F).
  assert (forall j, j < length l -> nth j l 0%N = 255%N) as Each.
  { intros. rewrite ALL. rewrite nth_indep with (d' := 255%N) by (rewrite repeat_length; auto). apply nth_repeat. }
  assert (index = 0). { destruct (Nat.eq_dec index 0); auto. exfalso. apply F; auto. apply Each. lia. }
  subst index. simpl Nat.eqb. rewrite skipn_all2 in C by lia. rewrite app_nil_r in C.
  assert (nth 0 b 0%N = 255%N) as Z.
  { rewrite C. rewrite app_nth1 by (rewrite firstn_length; lia). rewrite nth_firstn by lia. apply Each. lia. }
  rewrite Z. cbn [andb]. simpl N.eqb. destruct roll.
  - f_equal. rewrite C. destruct l; [simpl in Pos; lia|]. simpl. f_equal. f_equal. lia.
  - f_equal. rewrite B. now symmetry.
Qed.

Lemma dec_borrow_spec : forall i bytes b index, i < length bytes ->
  dec_borrow bytes i = (b, index) ->
  index <= i /\ length b = length bytes /\
  b = firstn (S index) bytes ++ repeat 255%N (i - index) ++ skipn (S i) bytes /\
  (forall j, index < j <= i -> nth j bytes 0%N = 0%N) /\
  (index <> 0 -> nth index bytes 0%N <> 0%N).
Proof.
  induction i; intros; cbn [dec_borrow] in H0.
  - inversion H0; subst. repeat split; auto; try lia.
    cbn [Nat.sub repeat]. rewrite app_nil_l. now rewrite firstn_skipn.
  - destruct (N.eqb_spec (nth (S i) bytes 0%N) 0).
    + apply IHi in H0; [|rewrite length_upd; lia].
      destruct H0 as (A & B & C & D & E). rewrite length_upd in B.
      split; [lia|]. split; [lia|]. split; [|split].
      * rewrite C. rewrite (upd_split bytes (S i)) by lia.
        rewrite firstn_app_le by (rewrite firstn_length; lia).
        rewrite firstn_firstn, Nat.min_l by lia. f_equal.
        replace (S i - index) with (S (i - index)) by lia.
        rewrite skipn_app_ge by (rewrite firstn_length; lia).
        rewrite firstn_length, Nat.min_l by lia. rewrite Nat.sub_diag.
        cbn [skipn repeat]. rewrite repeat_cons. rewrite <- app_assoc. reflexivity.
      * intros. destruct (Nat.eq_dec j (S i)); [subst; auto|].
        specialize (D j ltac:(lia)). rewrite nth_upd_neq in D by lia. exact D.
      * intros. specialize (E H0). rewrite nth_upd_neq in E by lia. auto.
    + inversion H0; subst. repeat split; auto; try lia.
      rewrite Nat.sub_diag. simpl repeat. rewrite app_nil_l. now rewrite firstn_skipn.
Qed.

Lemma decrement_correct : forall l roll, l <> [] -> bytes_ok l -> (0 < be_value l)%N ->
  exists l', decrement_byte_array l roll = (l', CM_OK) /\ length l' = length l /\ bytes_ok l' /\
    be_value l' = (be_value l - 1)%N.
Proof.
  intros l roll NE OK LT. unfold decrement_byte_array. destruct l as [|h t]; [congruence|].
  assert (0 < length (h :: t)) as Pos by (simpl; lia).
  set (l := h :: t) in *. clearbody l.
  destruct (dec_borrow l (length l - 1)) as [b index] eqn:E.
  assert (length l - 1 < length l) as Hlt by lia.
  destruct (dec_borrow_spec _ _ _ _ Hlt E) as (A & B & C & D & F).
  rewrite skipn_all2 in C by lia. rewrite app_nil_r in C.
  assert (forall j, j <= index -> nth j b 0%N = nth j l 0%N) as Same.
  { intros. rewrite C. rewrite app_nth1 by (rewrite firstn_length; lia). apply nth_firstn. lia. }
  assert (skipn (S index) l = repeat 0%N (length l - 1 - index)) as Tail.
  { rewrite (list_all_eq_repeat (skipn (S index) l) 0%N).
    - rewrite skipn_length. f_equal. lia.
    - intros. rewrite nth_skipn. rewrite skipn_length in H. apply D. lia. }
  assert (be_value l = (be_value (firstn index l) * 256 ^ N.of_nat (S (length l - 1 - index)) +
     (nth index l 0 * 256 ^ N.of_nat (length l - 1 - index)))%N) as V.
  { rewrite (split_at l index) at 1 by lia. rewrite be_value_app, be_value_cons, Tail.
    simpl length. rewrite repeat_length, be_value_repeat0. lia. }
  assert (nth index l 0%N <> 0%N) as N0.
  { destruct (Nat.eq_dec index 0); [|auto]. subst index. intro.
    rewrite H in V. simpl firstn in V. unfold be_value at 2 in V. simpl fold_left in V. lia. }
  destruct (Nat.eqb_spec index 0) as [I|I]; destruct (N.eqb_spec (nth 0 b 0%N) 0) as [Z|Z]; cbn [andb];
    try (exfalso; subst index; rewrite Same in Z by lia; contradiction).
  all: eexists; split; [reflexivity|]; split; [rewrite length_upd; lia|].
  all: assert (byte_ok (nth index l 0%N)) as BO by (unfold bytes_ok in OK; rewrite Forall_forall in OK; apply OK; apply nth_In; lia).
  all: unfold byte_ok in BO.
  all: assert (upd b index ((nth index b 0 + 255) mod 256)%N =
         firstn index l ++ (nth index l 0 - 1)%N :: repeat 255%N (length l - 1 - index)) as U.
  1,3,5: rewrite Same by lia;
    replace (nth index l 0 + 255)%N with ((nth index l 0 - 1) + 1 * 256)%N by lia;
    rewrite N.mod_add by lia; rewrite N.mod_small by lia; rewrite C;
    rewrite upd_app_l by (rewrite firstn_length; lia);
    rewrite (split_at (firstn (S index) l) index) by (rewrite firstn_length; lia);
    rewrite upd_app_r by (rewrite firstn_length; lia);
    rewrite firstn_length, Nat.min_l by (rewrite firstn_length; lia);
    rewrite Nat.sub_diag; cbn [upd];
    rewrite firstn_firstn, Nat.min_l by lia;
    rewrite skipn_all2 by (rewrite firstn_length; lia);
    rewrite <- app_assoc; reflexivity.
  all: rewrite U; split.
  1,3,5: apply Forall_app; split; [apply Forall_firstn; auto|]; constructor; [unfold byte_ok; lia|];
     apply Forall_forall; intros x Hx; apply repeat_spec in Hx; subst; reflexivity.
  all: rewrite be_value_app, be_value_cons; cbn [length]; rewrite repeat_length, V;
    pose proof (be_value_repeat255 (length l - 1 - index)); nia.
Qed.

Lemma decrement_boundary : forall l roll, l <> [] -> bytes_ok l -> be_value l = 0%N ->
  decrement_byte_array l roll =
    if roll then (repeat 255%N (length l), CM_OK) else (l, CM_BOUNDARY_REACHED).
Proof.
  intros l roll NE OK EQ.
  assert (l = repeat 0%N (length l)) as ALL.
  { apply be_value_inj; auto.
    - now rewrite repeat_length.
    - apply Forall_forall; intros x Hx; apply repeat_spec in Hx; subst; reflexivity.
    - now rewrite be_value_repeat0. }
  unfold decrement_byte_array. destruct l as [|h t]; [congruence|].
  assert (0 < length (h :: t)) as Pos by (simpl; lia).
  set (l := h :: t) in *. clearbody l.
  destruct (dec_borrow l (length l - 1)) as [b index] eqn:E.
  assert (length l - 1 < length l) as Hlt by lia.
  destruct (dec_borrow_spec _ _ _ _ Hlt E) as (A & B & C & D & F).
  assert (forall j, j < length l -> nth j l 0%N = 0%N) as Each.
  { intros. rewrite ALL. apply nth_repeat. }
  assert (index = 0). { destruct (Nat.eq_dec index 0); auto. exfalso. apply F; auto. apply Each. lia. }
  subst index. simpl Nat.eqb. rewrite skipn_all2 in C by lia. rewrite app_nil_r in C.
  assert (nth 0 b 0%N = 0%N) as Z.
  { rewrite C. rewrite app_nth1 by (rewrite firstn_length; lia). rewrite nth_firstn by lia. apply Each. lia. }
  rewrite Z. cbn [andb]. simpl N.eqb. destruct roll.
  - f_equal. rewrite C. destruct l; [simpl in Pos; lia|]. simpl. f_equal. f_equal. lia.
  - f_equal. rewrite B. now symmetry.
Qed.

(* ---- comparison ---- *)

Lemma is_array_zero_fold : forall l acc,
  fold_left (fun z b => z && (b =? 0)%N) l acc = acc && forallb (fun b => (b =? 0)%N) l.
Proof.
  induction l; intros; simpl; [now rewrite andb_true_r|]. rewrite IHl. now rewrite andb_assoc.
Qed.

Lemma is_array_zero_correct : forall l, l <> [] ->
  (is_array_zero l = true <-> be_value l = 0%N).
Proof.
  intros. destruct l; [congruence|]. unfold is_array_zero. rewrite is_array_zero_fold, andb_true_l.
  clear H. generalize (n :: l). intro m. induction m; simpl.
  - split; reflexivity || auto.
  - rewrite be_value_cons, andb_true_iff, N.eqb_eq, IHm.
    pose proof (N.pow_nonzero 256 (N.of_nat (length m))). split; intros; nia.
Qed.

Lemma compare_loop_nz : forall a b r, r <> 0%Z -> compare_loop a b r = r.
Proof.
  induction a; destruct b; simpl; intros; auto.
  destruct (Z.eqb_spec r 0); [lia|].
  rewrite Z.land_0_r, Z.lor_0_r. change (Z.lnot 0) with (-1)%Z. rewrite Z.land_m1_r. now apply IHa.
Qed.

Lemma compare_loop_zero : forall a b, length a = length b -> bytes_ok a -> bytes_ok b ->
  Z.sgn (compare_loop a b 0) = Z.sgn (Z.of_N (be_value a) - Z.of_N (be_value b)).
Proof.
  induction a; intros b H H0 H1; (destruct b; [|]); try (simpl in H; discriminate H).
  - reflexivity.
  - cbn [compare_loop Z.eqb]. inversion H0; inversion H1; subst. unfold byte_ok in *.
    rewrite Z.land_m1_r. rewrite Z.lor_0_l.
    rewrite !be_value_cons. assert (length a0 = length b) as L by (simpl in H; lia). rewrite L.
    pose proof (be_value_bound _ H5). pose proof (be_value_bound _ H9). rewrite L in H2.
    set (K := (256 ^ N.of_nat (length b))%N) in *.
    destruct (Z.eq_dec (Z.of_N a - Z.of_N n) 0).
    + rewrite e. rewrite IHa by (auto). f_equal. nia.
    + rewrite compare_loop_nz by auto.
      destruct (Z.lt_trichotomy (Z.of_N a) (Z.of_N n)) as [C|[C|C]]; [|lia|].
      * rewrite !Z.sgn_neg; auto; nia.
      * rewrite !Z.sgn_pos; auto; nia.
Qed.

Lemma be_value_strip : forall l n, n <= length l -> be_value (firstn n l) = 0%N ->
  be_value (skipn n l) = be_value l.
Proof.
  intros. rewrite <- (firstn_skipn n l) at 2. rewrite be_value_app, H0. lia.
Qed.

Lemma be_value_big : forall l n, n <= length l -> be_value (firstn n l) <> 0%N ->
  (256 ^ N.of_nat (length l - n) <= be_value l)%N.
Proof.
  intros. rewrite <- (firstn_skipn n l) at 2. rewrite be_value_app, skipn_length. nia.
Qed.

Lemma compare_array_correct : forall a b, a <> [] -> b <> [] -> bytes_ok a -> bytes_ok b ->
  Z.sgn (compare_array a b) = Z.sgn (Z.of_N (be_value a) - Z.of_N (be_value b)).
Proof.
  intros a b NA NB OA OB. unfold compare_array.
  destruct a as [|x a']; [congruence|]. destruct b as [|y b']; [congruence|].
  assert (0 < length (x :: a')) as PA by (simpl; lia).
  assert (0 < length (y :: b')) as PB by (simpl; lia).
  set (a := x :: a') in *. set (b := y :: b') in *. clearbody a b.
  destruct (Nat.ltb_spec (length b) (length a)).
  - assert (firstn (length a - length b) a <> []) as NE.
    { intro Q. apply f_equal with (f := @length N) in Q. rewrite firstn_length in Q. cbn [length] in Q. lia. }
    pose proof (is_array_zero_correct _ NE) as Z.
    destruct (is_array_zero (firstn (length a - length b) a)).
    + rewrite compare_loop_zero; auto; try (apply Forall_skipn; auto).
      * rewrite be_value_strip; auto; [lia|now apply Z].
      * rewrite skipn_length. lia.
    + assert (be_value (firstn (length a - length b) a) <> 0%N) as NZ by (intro Q; apply Z in Q; discriminate).
      pose proof (be_value_big a (length a - length b) ltac:(lia) NZ).
      pose proof (be_value_bound b OB).
      replace (length a - (length a - length b)) with (length b) in H0 by lia.
      symmetry. apply Z.sgn_pos. lia.
  - destruct (Nat.ltb_spec (length a) (length b)).
    + assert (firstn (length b - length a) b <> []) as NE.
      { intro Q. apply f_equal with (f := @length N) in Q. rewrite firstn_length in Q. cbn [length] in Q. lia. }
      pose proof (is_array_zero_correct _ NE) as Z.
      destruct (is_array_zero (firstn (length b - length a) b)).
      * rewrite compare_loop_zero; auto; try (apply Forall_skipn; auto).
        -- rewrite be_value_strip; auto; [lia|now apply Z].
        -- rewrite skipn_length. lia.
      * assert (be_value (firstn (length b - length a) b) <> 0%N) as NZ by (intro Q; apply Z in Q; discriminate).
        pose proof (be_value_big b (length b - length a) ltac:(lia) NZ).
        pose proof (be_value_bound a OA).
        replace (length b - (length b - length a)) with (length a) in H1 by lia.
        symmetry. apply Z.sgn_neg. lia.
    + apply compare_loop_zero; auto. lia.
Qed.
