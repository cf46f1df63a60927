From Coq Require Import List NArith Lia Bool Arith.
From Verif Require Import Base Crc8_Model Crc8_Spec.
Import ListNotations.

Lemma mod256_land : forall x, (x mod 256 = N.land x 255)%N.
Proof. intros. change 255%N with (N.ones 8). now rewrite N.land_ones. Qed.

Lemma land_0x80 : forall x, negb (N.land x 0x80 =? 0)%N = N.testbit x 7.
Proof.
  intros. change 0x80%N with (2 ^ 7)%N. destruct (N.testbit x 7) eqn:T.
  - destruct (N.eqb_spec (N.land x (2 ^ 7)) 0); auto.
    assert (N.testbit (N.land x (2 ^ 7)) 7 = true) as E by (rewrite N.land_spec, T; reflexivity).
    rewrite e in E. discriminate.
  - replace (N.land x (2 ^ 7)) with 0%N; auto. symmetry. apply N.bits_inj. intro k.
    rewrite N.land_spec, N.bits_0. destruct (N.eq_dec k 7).
    + subst. now rewrite T.
    + rewrite N.pow2_bits_false by auto. apply andb_false_r.
Qed.

Lemma crc8_bit_eq : forall x, crc8_bit x =
  N.lxor (N.land (N.shiftl x 1) 255) (if N.testbit x 7 then 7 else 0)%N.
Proof.
  intros. unfold crc8_bit. rewrite land_0x80, !mod256_land. destruct (N.testbit x 7).
  - apply N.bits_inj. intro k. rewrite !N.lxor_spec, !N.land_spec, !N.lxor_spec.
    destruct (N.lt_ge_cases k 3).
    + assert (N.testbit 255 k = true) as E; [|rewrite E, !andb_true_r; reflexivity].
      change 255%N with (N.ones 8). apply N.ones_spec_low. lia.
    + assert (N.testbit 7 k = false) as E; [|rewrite E, !xorb_false_r; reflexivity].
      change 7%N with (N.ones 3). now apply N.ones_spec_high.
  - now rewrite N.lxor_0_r.
Qed.

Lemma crc8_bit_lin : forall a b, crc8_bit (N.lxor a b) = N.lxor (crc8_bit a) (crc8_bit b).
Proof.
  intros. rewrite !crc8_bit_eq, N.shiftl_lxor, N.lxor_spec.
  assert (forall x y z, N.land (N.lxor x y) z = N.lxor (N.land x z) (N.land y z)) as D.
  { intros. apply N.bits_inj. intro k. rewrite !N.lxor_spec, !N.land_spec, !N.lxor_spec.
    destruct (N.testbit x k), (N.testbit y k), (N.testbit z k); reflexivity. }
  rewrite D. apply N.bits_inj. intro k. rewrite !N.lxor_spec.
  destruct (N.testbit a 7), (N.testbit b 7); cbn [xorb];
  rewrite ?N.bits_0; destruct (N.testbit 7 k), (N.testbit (N.land (N.shiftl a 1) 255) k),
    (N.testbit (N.land (N.shiftl b 1) 255) k); reflexivity.
Qed.

Lemma crc8_shift8_lin : forall a b, crc8_shift8 (N.lxor a b) = N.lxor (crc8_shift8 a) (crc8_shift8 b).
Proof. intros. unfold crc8_shift8. now rewrite !crc8_bit_lin. Qed.

Lemma crc8_bit_bound : forall x, byte_ok (crc8_bit x).
Proof. intros. unfold crc8_bit, byte_ok. destruct (negb _); apply N.mod_upper_bound; discriminate. Qed.

Lemma crc8_shift8_bound : forall x, byte_ok (crc8_shift8 x).
Proof. intros. apply crc8_bit_bound. Qed.

Lemma byte_testbit_high : forall x k, byte_ok x -> (8 <= k)%N -> N.testbit x k = false.
Proof.
  intros. destruct (N.eq_dec x 0) as [->|]; [apply N.bits_0|]. apply N.bits_above_log2.
  eapply N.lt_le_trans; [|eassumption]. apply N.log2_lt_pow2; [lia|exact H].
Qed.

Lemma lxor_byte : forall a b, byte_ok a -> byte_ok b -> byte_ok (N.lxor a b).
Proof.
  intros. unfold byte_ok. destruct (N.eq_dec (N.lxor a b) 0) as [E|E]; [rewrite E; reflexivity|].
  change 256%N with (2 ^ 8)%N. apply N.log2_lt_pow2; [lia|].
  destruct (N.lt_ge_cases (N.log2 (N.lxor a b)) 8); auto.
  pose proof (N.bit_log2 _ E) as T. rewrite N.lxor_spec, !byte_testbit_high in T by auto. discriminate.
Qed.

Lemma crc8_bit_zero : forall x, byte_ok x -> crc8_bit x = 0%N -> x = 0%N.
Proof.
  intros x H. rewrite crc8_bit_eq. intros E.
  assert (forall k, N.testbit (N.lxor (N.land (N.shiftl x 1) 255) (if N.testbit x 7 then 7 else 0)) k = false) as B
    by (intros; rewrite E; apply N.bits_0).
  assert (N.testbit x 7 = false) as T7.
  { specialize (B 0%N). rewrite N.lxor_spec, N.land_spec, N.shiftl_spec_low in B by lia.
    destruct (N.testbit x 7); auto. }
  rewrite T7 in B. apply N.bits_inj. intro k. rewrite N.bits_0.
  destruct (N.lt_ge_cases k 7).
  - specialize (B (k + 1)%N). rewrite N.lxor_spec, N.land_spec, N.bits_0, N.shiftl_spec_high' in B by lia.
    replace (k + 1 - 1)%N with k in B by lia.
    assert (N.testbit 255 (k + 1) = true) as O by (change 255%N with (N.ones 8); apply N.ones_spec_low; lia).
    rewrite O in B. destruct (N.testbit x k); auto.
  - destruct (N.eq_dec k 7); [now subst|]. apply byte_testbit_high; auto. lia.
Qed.

Lemma crc8_shift8_zero : forall x, byte_ok x -> crc8_shift8 x = 0%N -> x = 0%N.
Proof.
  intros. unfold crc8_shift8 in H0.
  do 7 (apply crc8_bit_zero in H0; [|apply crc8_bit_bound]). now apply crc8_bit_zero.
Qed.

Lemma crc8_shift8_inj : forall a b, byte_ok a -> byte_ok b -> crc8_shift8 a = crc8_shift8 b -> a = b.
Proof.
  intros. apply N.lxor_eq. apply crc8_shift8_zero; [now apply lxor_byte|].
  rewrite crc8_shift8_lin, H1. apply N.lxor_nilpotent.
Qed.

Lemma crc8_loop_app : forall a b c, crc8_loop c (a ++ b) = crc8_loop (crc8_loop c a) b.
Proof. induction a; intros; simpl; auto. Qed.

Lemma crc8_loop_bound : forall d c, byte_ok c -> byte_ok (crc8_loop c d).
Proof. induction d; intros; simpl; auto. apply IHd. apply crc8_shift8_bound. Qed.

Lemma crc8_loop_inj : forall d c c', byte_ok c -> byte_ok c' -> bytes_ok d ->
  crc8_loop c d = crc8_loop c' d -> c = c'.
Proof.
  induction d; intros; simpl in *; auto. inversion H1; subst.
  apply IHd in H2; auto using crc8_shift8_bound.
  apply crc8_shift8_inj in H2; auto using lxor_byte.
  assert (N.lxor (N.lxor c a) a = N.lxor (N.lxor c' a) a) as E by congruence.
  now rewrite !N.lxor_assoc, N.lxor_nilpotent, !N.lxor_0_r in E.
Qed.

(** single byte change *)
Lemma crc8_one_byte : forall c pre x y post, byte_ok c -> bytes_ok pre -> byte_ok x -> byte_ok y -> bytes_ok post ->
  x <> y -> crc8_loop c (pre ++ x :: post) <> crc8_loop c (pre ++ y :: post).
Proof.
  intros c pre x y post Hc Hp Hx Hy Hpost NE E. rewrite !crc8_loop_app in E. cbn [crc8_loop] in E.
  apply crc8_loop_inj in E; auto using crc8_shift8_bound.
  pose proof (crc8_loop_bound pre c Hc) as B. set (c' := crc8_loop c pre) in *. clearbody c'.
  apply crc8_shift8_inj in E; auto using lxor_byte.
  apply NE. assert (N.lxor c' (N.lxor c' x) = N.lxor c' (N.lxor c' y)) as E' by congruence.
  now rewrite <- !N.lxor_assoc, N.lxor_nilpotent, !N.lxor_0_l in E'.
Qed.

(** two adjacent bytes, burst of at most eight bits *)
Definition two (d : N) : N := crc8_shift8 (N.lxor (crc8_shift8 (d / 256)) (d mod 256)).

Lemma burst_table : forallb (fun k => forallb (fun e => negb (two (N.shiftl e k) =? 0)%N)
   (map N.of_nat (seq 1 255))) (map N.of_nat (seq 0 9)) = true.
Proof. vm_compute. reflexivity. Qed.

Lemma lxor_mul256 : forall x y x' y', byte_ok y -> byte_ok y' ->
  (N.lxor (x * 256 + y) (x' * 256 + y') = N.lxor x x' * 256 + N.lxor y y')%N.
Proof.
  assert (forall x y, byte_ok y -> (x * 256 + y = N.lxor (N.shiftl x 8) y)%N) as S.
  { intros. rewrite N.shiftl_mul_pow2. change (2 ^ 8)%N with 256%N.
    apply N.add_nocarry_lxor. apply N.bits_inj. intro k. rewrite N.land_spec, N.bits_0.
    change 256%N with (2 ^ 8)%N. destruct (N.lt_ge_cases k 8).
    - now rewrite N.mul_pow2_bits_low.
    - rewrite (byte_testbit_high y) by auto. apply andb_false_r. }
  intros. rewrite !S by auto using lxor_byte. rewrite N.shiftl_lxor.
  apply N.bits_inj. intro k. rewrite !N.lxor_spec.
  destruct (N.testbit (N.shiftl x 8) k), (N.testbit (N.shiftl x' 8) k), (N.testbit y k), (N.testbit y' k); reflexivity.
Qed.

Lemma crc8_burst : forall c pre x y x' y' post, byte_ok c -> bytes_ok pre ->
  byte_ok x -> byte_ok y -> byte_ok x' -> byte_ok y' -> bytes_ok post ->
  burst8 x y x' y' ->
  crc8_loop c (pre ++ x :: y :: post) <> crc8_loop c (pre ++ x' :: y' :: post).
Proof.
  intros c pre x y x' y' post Hc Hp Hx Hy Hx' Hy' Hpost (e & k & He & Hk & B) E.
  rewrite !crc8_loop_app in E. cbn [crc8_loop] in E.
  apply crc8_loop_inj in E; auto using crc8_shift8_bound.
  set (c' := crc8_loop c pre) in *. clearbody c'.
  assert (two (N.lxor (x * 256 + y) (x' * 256 + y')) = 0)%N as Z.
  { rewrite lxor_mul256 by auto. unfold two.
    assert (byte_ok (N.lxor y y')) by auto using lxor_byte. unfold byte_ok in H.
    rewrite N.div_add_l by discriminate. rewrite (N.div_small _ _ H), N.add_0_r.
    rewrite (N.add_comm (_ * 256)), N.mod_add, N.mod_small by (auto; discriminate).
    assert (N.lxor (crc8_shift8 (N.lxor (crc8_shift8 (N.lxor c' x)) y))
                   (crc8_shift8 (N.lxor (crc8_shift8 (N.lxor c' x')) y')) = 0)%N as Z
      by (rewrite E; apply N.lxor_nilpotent).
    rewrite <- crc8_shift8_lin in Z. rewrite <- Z. f_equal.
    rewrite !crc8_shift8_lin. apply N.bits_inj. intro m. rewrite !N.lxor_spec.
    destruct (N.testbit (crc8_shift8 x) m), (N.testbit (crc8_shift8 x') m), (N.testbit y m), (N.testbit y' m),
      (N.testbit (crc8_shift8 c') m); reflexivity. }
  rewrite B in Z. pose proof burst_table as T. rewrite forallb_forall in T.
  specialize (T k). assert (In k (map N.of_nat (seq 0 9))) as IK.
  { apply in_map_iff. exists (N.to_nat k). split; [lia|]. apply in_seq. lia. }
  specialize (T IK). rewrite forallb_forall in T. specialize (T e).
  assert (In e (map N.of_nat (seq 1 255))) as IE.
  { apply in_map_iff. exists (N.to_nat e). split; [lia|]. apply in_seq. lia. }
  specialize (T IE). rewrite Z in T. discriminate.
Qed.

(* ---- remainder ---- *)

Lemma times_poly_lin : forall a b, times_poly (N.lxor a b) = N.lxor (times_poly a) (times_poly b).
Proof.
  intros. unfold times_poly. rewrite !N.shiftl_lxor. apply N.bits_inj. intro k. rewrite !N.lxor_spec.
  destruct (N.testbit (N.shiftl a 8) k), (N.testbit (N.shiftl b 8) k), (N.testbit (N.shiftl a 2) k),
    (N.testbit (N.shiftl b 2) k), (N.testbit (N.shiftl a 1) k), (N.testbit (N.shiftl b 1) k), (N.testbit a k), (N.testbit b k); reflexivity.
Qed.

Lemma times_poly_shift : forall a n, times_poly (N.shiftl a n) = N.shiftl (times_poly a) n.
Proof.
  intros. unfold times_poly. rewrite !N.shiftl_lxor, !N.shiftl_shiftl.
  now rewrite !(N.add_comm n).
Qed.

Lemma crc8_bit_poly : forall x, byte_ok x ->
  N.shiftl x 1 = N.lxor (times_poly (if N.testbit x 7 then 1 else 0)%N) (crc8_bit x).
Proof.
  intros. rewrite crc8_bit_eq. apply N.bits_inj. intro k. rewrite !N.lxor_spec, N.land_spec.
  assert (k < 8 \/ k = 8 \/ 8 < k)%N as [L|[L|L]] by lia.
  - assert (N.testbit 255 k = true) as O by (change 255%N with (N.ones 8); now apply N.ones_spec_low).
    rewrite O, andb_true_r.
    assert (N.testbit (times_poly (if N.testbit x 7 then 1 else 0)) k = N.testbit (if N.testbit x 7 then 7 else 0) k) as E.
    { destruct (N.testbit x 7); [|now rewrite !N.bits_0].
      change (times_poly 1) with (263)%N.
      assert (k = 0 \/ k = 1 \/ k = 2 \/ k = 3 \/ k = 4 \/ k = 5 \/ k = 6 \/ k = 7)%N as C by lia.
      repeat (destruct C as [C|C]; [subst; reflexivity|]). subst; reflexivity. }
    rewrite E. destruct (N.testbit (if N.testbit x 7 then 7 else 0) k), (N.testbit (N.shiftl x 1) k); reflexivity.
  - subst. rewrite N.shiftl_spec_high' by lia. change (8 - 1)%N with 7%N. change (N.testbit 255 8) with false.
    rewrite andb_false_r. destruct (N.testbit x 7); reflexivity.
  - rewrite N.shiftl_spec_high' by lia. rewrite byte_testbit_high by (auto; lia).
    assert (N.testbit 255 k = false) as O by (change 255%N with (N.ones 8); apply N.ones_spec_high; lia).
    rewrite O, andb_false_r. destruct (N.testbit x 7); [|now rewrite !N.bits_0].
    change (times_poly 1) with (263)%N.
    rewrite (N.bits_above_log2 263) by (change (N.log2 263) with 8%N; lia).
    rewrite (N.bits_above_log2 7) by (change (N.log2 7) with 2%N; lia). reflexivity.
Qed.

Lemma poly_step : forall x y n, byte_ok y -> (exists q, N.shiftl x n = N.lxor (times_poly q) y) ->
  exists q, N.shiftl x (n + 1) = N.lxor (times_poly q) (crc8_bit y).
Proof.
  intros x y n H [q Q]. rewrite <- N.shiftl_shiftl, Q, N.shiftl_lxor, <- times_poly_shift.
  rewrite (crc8_bit_poly y H), <- N.lxor_assoc, <- times_poly_lin. eauto.
Qed.

Lemma crc8_shift8_poly : forall x, byte_ok x ->
  exists q, N.shiftl x 8 = N.lxor (times_poly q) (crc8_shift8 x).
Proof.
  intros. unfold crc8_shift8.
  assert (exists q, N.shiftl x 0 = N.lxor (times_poly q) x) as H0.
  { exists 0%N. now rewrite N.shiftl_0_r. }
  do 8 (apply poly_step in H0; [|auto using crc8_bit_bound]). exact H0.
Qed.

Lemma crc8_loop_remainder : forall d m c, bytes_ok d -> is_crc_remainder m c ->
  is_crc_remainder (fold_left (fun acc b => (acc * 256 + b)%N) d m) (crc8_loop c d).
Proof.
  induction d; intros m c Hd [Hc [q Q]]; cbn [fold_left crc8_loop]; [split; eauto|].
  inversion Hd; subst. apply IHd; auto. split; [apply crc8_shift8_bound|].
  destruct (crc8_shift8_poly (N.lxor c a)) as [q2 Q2]; [now apply lxor_byte|].
  exists (N.lxor (N.shiftl q 8) q2).
  assert (m * 256 + a = N.lxor (N.shiftl m 8) a)%N as E.
  { pose proof (lxor_mul256 m 0 0 a ltac:(reflexivity) H1) as L.
    rewrite N.lxor_0_r, N.lxor_0_l, N.mul_0_l, N.add_0_l, N.add_0_r in L.
    rewrite <- L, N.shiftl_mul_pow2. reflexivity. }
  rewrite E, Q, times_poly_lin, times_poly_shift, (N.lxor_assoc (N.shiftl (times_poly q) 8)), <- Q2, <- N.shiftl_lxor.
  f_equal. apply N.lxor_assoc.
Qed.

Lemma times_poly_big : forall q, q <> 0%N -> (256 <= times_poly q)%N.
Proof.
  intros. destruct (N.lt_ge_cases (times_poly q) 256); auto. exfalso.
  pose proof (byte_testbit_high (times_poly q) (N.log2 q + 8) H0 ltac:(lia)) as T.
  unfold times_poly in T. rewrite !N.lxor_spec in T.
  rewrite (N.shiftl_spec_high' q 8) in T by lia. rewrite N.shiftl_spec_high' in T by lia.
  rewrite N.shiftl_spec_high' in T by lia.
  replace (N.log2 q + 8 - 8)%N with (N.log2 q) in T by lia. rewrite N.bit_log2 in T by auto.
  rewrite (N.bits_above_log2 q) in T by lia. rewrite (N.bits_above_log2 q) in T by lia.
  rewrite (N.bits_above_log2 q) in T by lia. discriminate.
Qed.

Lemma remainder_unique : forall m r r', is_crc_remainder m r -> is_crc_remainder m r' -> r = r'.
Proof.
  intros m r r' [Hr [q Q]] [Hr' [q' Q']]. rewrite Q in Q'.
  assert (times_poly (N.lxor q q') = N.lxor r r') as E.
  { rewrite times_poly_lin.
    assert (N.lxor (N.lxor (times_poly q) r) (N.lxor r (times_poly q')) =
            N.lxor (N.lxor (times_poly q') r') (N.lxor r (times_poly q'))) as E by congruence.
    rewrite (N.lxor_assoc (times_poly q)), <- (N.lxor_assoc r r), N.lxor_nilpotent, N.lxor_0_l in E.
    rewrite E. rewrite (N.lxor_comm r), (N.lxor_comm (times_poly q')), N.lxor_assoc.
    rewrite <- (N.lxor_assoc (times_poly q')), N.lxor_nilpotent, N.lxor_0_l. apply N.lxor_comm. }
  assert (N.lxor q q' = 0%N) as Z.
  { destruct (N.eq_dec (N.lxor q q') 0); auto. apply times_poly_big in n. rewrite E in n.
    pose proof (lxor_byte r r' Hr Hr'). unfold byte_ok in H. lia. }
  rewrite Z in E. symmetry in E. now apply N.lxor_eq in E.
Qed.

Lemma crc8_is_remainder : forall addr d, byte_ok addr -> bytes_ok d -> 0 < length d < 256 ->
  is_crc_remainder (be_value (addr :: d)) (crc8 addr (Some d) (length d)).
Proof.
  intros. unfold crc8, crc8_init, crc8_update. rewrite Nat.mod_small by lia.
  destruct (Nat.eqb_spec (length d) 0); [lia|]. rewrite firstn_all.
  change (1 mod 256) with 1. cbn [firstn crc8_loop].
  change (crc8_loop (crc8_shift8 (N.lxor 0 addr)) d) with (crc8_loop 0 (addr :: d)).
  apply crc8_loop_remainder; [constructor; auto|]. split; [reflexivity|]. exists 0%N. reflexivity.
Qed.

Lemma crc8_as_loop : forall addr d, 0 < length d < 256 ->
  crc8 addr (Some d) (length d) = crc8_loop 0 (addr :: d).
Proof.
  intros. unfold crc8, crc8_init, crc8_update. rewrite Nat.mod_small by lia.
  destruct (Nat.eqb_spec (length d) 0); [lia|]. rewrite firstn_all. reflexivity.
Qed.

Lemma crc8_update_app : forall c a b, length a + length b < 256 ->
  crc8_update (crc8_update c a (length a)) b (length b) = crc8_update c (a ++ b) (length (a ++ b)).
Proof.
  intros. unfold crc8_update. rewrite app_length, !Nat.mod_small by lia.
  rewrite <- app_length, !firstn_all. now rewrite crc8_loop_app.
Qed.
