From Coq Require Import List NArith ZArith Lia Bool Arith ZifyBool ZifyNat ZifyN.
From Verif Require Import Base ByteMath_Model ByteMath_Spec ByteMath_Proofs.
Import ListNotations.

Definition rs_byte (s c b : N) : N := (N.lor (N.shiftl c (8 - s)) (N.shiftr b s) mod 256)%N.
Definition ls_byte (s b x : N) : N := (N.lor (N.shiftl b s) (N.shiftr x (8 - s)) mod 256)%N.

Lemma lor_add : forall k a b, (b < 2 ^ k)%N -> N.lor (a * 2 ^ k) b = (a * 2 ^ k + b)%N.
Proof.
  intros. assert (N.land (a * 2 ^ k) b = 0%N) as D.
  { apply N.bits_inj. intro m. rewrite N.land_spec, N.bits_0.
    destruct (N.lt_ge_cases m k).
    - rewrite N.mul_pow2_bits_low by auto. reflexivity.
    - replace (N.testbit b m) with false; [apply andb_false_r|]. symmetry.
      destruct (N.eq_dec b 0) as [->|]; [apply N.bits_0|].
      apply N.bits_above_log2. eapply N.lt_le_trans; [|eassumption]. apply N.log2_lt_pow2; lia. }
  rewrite N.add_nocarry_lxor by auto. symmetry. now apply N.lxor_lor.
Qed.

Lemma pow_split : forall s, (s < 8)%N -> (256 = 2 ^ (8 - s) * 2 ^ s)%N.
Proof. intros. rewrite <- N.pow_add_r. replace (8 - s + s)%N with 8%N by lia. reflexivity. Qed.

Lemma rs_byte_value : forall s c b, (s < 8)%N -> byte_ok c -> byte_ok b ->
  rs_byte s c b = ((c mod 2 ^ s) * 2 ^ (8 - s) + b / 2 ^ s)%N.
Proof.
  intros. unfold rs_byte, byte_ok in *. rewrite N.shiftl_mul_pow2, N.shiftr_div_pow2.
  pose proof (pow_split s H) as PS.
  pose proof (N.pow_nonzero 2 s ltac:(lia)). pose proof (N.pow_nonzero 2 (8 - s) ltac:(lia)).
  assert (b / 2 ^ s < 2 ^ (8 - s))%N by (apply N.div_lt_upper_bound; lia).
  rewrite lor_add by auto. rewrite PS at 1. rewrite N.mod_mul_r by auto.
  rewrite N.div_add_l by auto. rewrite (N.div_small (b / 2 ^ s)) by auto.
  rewrite (N.add_comm (c * _)), N.mod_add, (N.mod_small (b / 2 ^ s)) by auto.
  rewrite N.add_0_r. lia.
Qed.

Lemma ls_byte_value : forall s b x, (s < 8)%N -> byte_ok b -> byte_ok x ->
  ls_byte s b x = ((b * 2 ^ s + x / 2 ^ (8 - s)) mod 256)%N.
Proof.
  intros. unfold ls_byte, byte_ok in *. rewrite N.shiftl_mul_pow2, N.shiftr_div_pow2.
  pose proof (pow_split s H). rewrite lor_add; auto.
  apply N.div_lt_upper_bound; [apply N.pow_nonzero; lia|lia].
Qed.

Fixpoint rs (s c : N) (l : list N) : list N :=
  match l with [] => [] | b :: t => rs_byte s c b :: rs s b t end.
Fixpoint ls (s : N) (l : list N) : list N :=
  match l with [] => [] | b :: t => ls_byte s b (hd 0%N t) :: ls s t end.

Lemma length_rs : forall l s c, length (rs s c l) = length l.
Proof. induction l; simpl; auto. Qed.
Lemma length_ls : forall l s, length (ls s l) = length l.
Proof. induction l; simpl; auto. Qed.

Lemma pow256 : forall n, (256 ^ N.of_nat n = 2 ^ (8 * N.of_nat n))%N.
Proof. intros. change 256%N with (2 ^ 8)%N. now rewrite <- N.pow_mul_r. Qed.

Lemma rs_value : forall l s c, (s < 8)%N -> byte_ok c -> bytes_ok l ->
  be_value (rs s c l) = (((c mod 2 ^ s) * 256 ^ N.of_nat (length l) + be_value l) / 2 ^ s)%N.
Proof.
  induction l as [|b t IH]; intros s c Hs Hc Hl.
  - simpl rs. simpl length. change (be_value []) with 0%N. change (256 ^ N.of_nat 0)%N with 1%N.
    rewrite N.div_small; auto.
    pose proof (N.mod_upper_bound c (2 ^ s)). pose proof (N.pow_nonzero 2 s). lia.
  - inversion Hl; subst. cbn [rs]. rewrite !be_value_cons, length_rs, rs_byte_value, IH by auto.
    cbn [length]. rewrite Nat2N.inj_succ, N.pow_succ_r'.
    set (K := (256 ^ N.of_nat (length t))%N) in *.
    set (P := (2 ^ s)%N) in *. assert (P <> 0)%N by (apply N.pow_nonzero; lia).
    set (Q := (2 ^ (8 - s))%N) in *.
    assert (256 = P * Q)%N as PQ.
    { unfold P, Q. rewrite <- N.pow_add_r. replace (s + (8 - s))%N with 8%N by lia. reflexivity. }
    rewrite PQ. 
    replace (c mod P * (P * Q * K) + (b * K + be_value t))%N
      with (((c mod P * Q + b / P) * K) * P + ((b mod P) * K + be_value t))%N.
    2:{ rewrite (N.div_mod b P) at 3 by auto. lia. }
    rewrite N.div_add_l by auto. lia.
Qed.

Lemma hd_value : forall t s, (s < 8)%N -> bytes_ok t ->
  (be_value t * 2 ^ s / 256 ^ N.of_nat (length t) = hd 0 t / 2 ^ (8 - s))%N.
Proof.
  intros. destruct t as [|x u].
  - simpl. change (be_value []) with 0%N. rewrite !N.div_0_l; auto; try lia; apply N.pow_nonzero; lia.
  - inversion H0; subst. cbn [hd]. rewrite be_value_cons. cbn [length].
    pose proof (be_value_bound _ H4).
    set (K := (256 ^ N.of_nat (length u))%N) in *.
    assert (K <> 0)%N by (apply N.pow_nonzero; lia).
    rewrite Nat2N.inj_succ, N.pow_succ_r'. fold K.
    assert (256 = 2 ^ (8 - s) * 2 ^ s)%N as PQ.
    { rewrite <- N.pow_add_r. replace (8 - s + s)%N with 8%N by lia. reflexivity. }
    rewrite PQ. pose proof (N.pow_nonzero 2 s ltac:(lia)). pose proof (N.pow_nonzero 2 (8 - s) ltac:(lia)).
    replace (2 ^ (8 - s) * 2 ^ s * K)%N with (K * 2 ^ (8 - s) * 2 ^ s)%N by lia.
    rewrite N.div_mul_cancel_r by nia.
    rewrite <- N.div_div by auto.
    rewrite N.div_add_l by auto. rewrite (N.div_small (be_value u) K) by auto. f_equal. lia.
Qed.

Lemma ls_value : forall l s, (s < 8)%N -> bytes_ok l ->
  be_value (ls s l) = ((be_value l * 2 ^ s) mod 256 ^ N.of_nat (length l))%N.
Proof.
  induction l as [|b t IH]; intros s Hs Hl.
  - reflexivity.
  - inversion Hl; subst. cbn [ls]. rewrite !be_value_cons, length_ls, IH by auto.
    assert (byte_ok (hd 0%N t)) by (destruct t; [reflexivity|inversion H2; auto]).
    rewrite ls_byte_value by auto. rewrite <- hd_value by auto.
    cbn [length]. rewrite Nat2N.inj_succ, N.pow_succ_r'.
    set (K := (256 ^ N.of_nat (length t))%N) in *. assert (K <> 0)%N by (apply N.pow_nonzero; lia).
    set (P := (2 ^ s)%N) in *.
    rewrite (N.mul_comm 256 K). rewrite N.mod_mul_r by lia.
    replace ((b * K + be_value t) * P)%N with ((b * P) * K + be_value t * P)%N by lia.
    rewrite N.div_add_l by auto.
    rewrite (N.add_comm (b * P * K)), N.mod_add by auto. lia.
Qed.

(* ---- the loops are the pure functions ---- *)

Lemma rshift_loop_length : forall n lo b s, length (rshift_loop n lo b s) = length b.
Proof. induction n; intros; cbn [rshift_loop]; auto. rewrite IHn. apply length_upd. Qed.

Lemma rshift_loop_nth : forall n lo b s j, lo + n < length b ->
  nth j (rshift_loop n lo b s) 0%N =
  if (lo <? j) && (j <=? lo + n) then rs_byte s (nth (j - 1) b 0%N) (nth j b 0%N) else nth j b 0%N.
Proof.
  induction n; intros; cbn [rshift_loop].
  - destruct (Nat.ltb_spec lo j), (Nat.leb_spec j (lo + 0)); simpl; auto; lia.
  - rewrite IHn by (rewrite length_upd; lia).
    destruct (Nat.ltb_spec lo j); cbn [andb].
    + destruct (Nat.leb_spec j (lo + n)).
      * destruct (Nat.leb_spec j (lo + S n)); [|lia].
        rewrite !nth_upd_neq by lia. reflexivity.
      * destruct (Nat.leb_spec j (lo + S n)).
        -- assert (j = lo + S n) by lia. subst. rewrite nth_upd_eq by lia. reflexivity.
        -- rewrite nth_upd_neq by lia. reflexivity.
    + rewrite nth_upd_neq by lia. reflexivity.
Qed.

Lemma nth_rs : forall l s c j, j < length l ->
  nth j (rs s c l) 0%N = rs_byte s (if j =? 0 then c else nth (j - 1) l 0%N) (nth j l 0%N).
Proof.
  induction l; intros; [simpl in H; lia|]. destruct j; [reflexivity|].
  cbn [rs nth]. rewrite IHl by (simpl in H; lia). f_equal.
  destruct (Nat.eqb_spec j 0); [subst; reflexivity|]. simpl.
  replace (j - 0) with j by lia. destruct j; [lia|]. simpl. f_equal. lia.
Qed.

Lemma rs_byte_0 : forall s b, (s < 8)%N -> byte_ok b -> rs_byte s 0 b = N.shiftr b s.
Proof.
  intros. rewrite rs_byte_value; auto; [|reflexivity].
  rewrite N.mod_0_l by (apply N.pow_nonzero; lia). rewrite N.shiftr_div_pow2. lia.
Qed.

Lemma repeat_nth0 : forall n j, nth j (repeat 0%N n) 0%N = 0%N.
Proof. intros. apply nth_repeat. Qed.

Lemma bytes_ok_nth : forall l j, bytes_ok l -> byte_ok (nth j l 0%N).
Proof.
  intros. destruct (Nat.lt_ge_cases j (length l)).
  - unfold bytes_ok in H. rewrite Forall_forall in H. apply H. now apply nth_In.
  - rewrite nth_overflow by auto. reflexivity.
Qed.

Lemma mod8 : forall n, (N.of_nat (n mod 8) < 8)%N.
Proof. intros. pose proof (Nat.mod_upper_bound n 8). lia. Qed.

Lemma right_shift_eq : forall l n, bytes_ok l -> n / 8 < length l -> n <> 0 ->
  right_shift_array l n =
  repeat 0%N (n / 8) ++ rs (N.of_nat (n mod 8)) 0 (firstn (length l - n / 8) l).
Proof.
  intros l n OK LT NZ. unfold right_shift_array.
  destruct (Nat.eqb_spec (length l) 0); [lia|]. destruct (Nat.eqb_spec n 0); [lia|]. cbn [orb].
  destruct (Nat.leb_spec (length l) (n / 8)); [lia|].
  set (sb := n / 8) in *. set (s := N.of_nat (n mod 8)).
  assert (s < 8)%N as Hs by apply mod8.
  set (moved := repeat 0%N sb ++ firstn (length l - sb) l).
  assert (length moved = length l) as LM.
  { unfold moved. rewrite app_length, repeat_length, firstn_length. lia. }
  apply nth_ext_len with (d := 0%N).
  - rewrite length_upd, rshift_loop_length, LM, app_length, repeat_length, length_rs, firstn_length. lia.
  - intros j Hj. rewrite length_upd, rshift_loop_length, LM in Hj.
    assert (forall k, nth (sb + k) moved 0%N = nth k (firstn (length l - sb) l) 0%N) as Mhi.
    { intros. unfold moved. rewrite app_nth2 by (rewrite repeat_length; lia). rewrite repeat_length. f_equal. lia. }
    destruct (Nat.eq_dec j sb).
    + subst j. rewrite nth_upd_eq by (rewrite rshift_loop_length; lia).
      rewrite rshift_loop_nth by lia.
      rewrite Nat.ltb_irrefl. cbn [andb].
      rewrite app_nth2 by (rewrite repeat_length; lia). rewrite repeat_length, Nat.sub_diag.
      rewrite nth_rs by (rewrite firstn_length; lia). simpl Nat.eqb. cbn iota.
      replace sb with (sb + 0) at 1 by lia. rewrite Mhi.
      symmetry. apply rs_byte_0; auto. apply bytes_ok_nth. now apply Forall_firstn.
    + rewrite nth_upd_neq by auto. rewrite rshift_loop_nth by lia.
      destruct (Nat.ltb_spec sb j); cbn [andb].
      * destruct (Nat.leb_spec j (sb + (length l - 1 - sb))); [|lia].
        rewrite app_nth2 by (rewrite repeat_length; lia). rewrite repeat_length.
        rewrite nth_rs by (rewrite firstn_length; lia).
        destruct (Nat.eqb_spec (j - sb) 0); [lia|].
        replace (j - 1) with (sb + (j - sb - 1)) by lia. rewrite Mhi.
        replace j with (sb + (j - sb)) at 2 by lia. rewrite Mhi. reflexivity.
      * unfold moved. rewrite !app_nth1 by (rewrite repeat_length; lia). reflexivity.
Qed.

Lemma be_value_firstn_div : forall l n, n <= length l -> bytes_ok l ->
  be_value (firstn (length l - n) l) = (be_value l / 256 ^ N.of_nat n)%N.
Proof.
  intros. rewrite <- (firstn_skipn (length l - n) l) at 3. rewrite be_value_app, skipn_length.
  replace (length l - (length l - n)) with n by lia.
  rewrite N.div_add_l by (apply N.pow_nonzero; lia). rewrite N.div_small; [lia|].
  pose proof (be_value_bound (skipn (length l - n) l) ltac:(apply Forall_skipn; auto)).
  rewrite skipn_length in H1. now replace (length l - (length l - n)) with n in H1 by lia.
Qed.

Lemma right_shift_length : forall l n, length (right_shift_array l n) = length l.
Proof.
  intros. unfold right_shift_array. destruct (_ || _); auto. destruct (Nat.leb_spec (length l) (n / 8)).
  - apply repeat_length.
  - rewrite length_upd, rshift_loop_length, app_length, repeat_length, firstn_length. lia.
Qed.

Lemma right_shift_value : forall l n, bytes_ok l ->
  be_value (right_shift_array l n) = (be_value l / 2 ^ N.of_nat n)%N.
Proof.
  intros l n OK. destruct (Nat.eq_dec n 0).
  - subst. unfold right_shift_array. rewrite orb_true_r. simpl. now rewrite N.div_1_r.
  - pose proof (Nat.div_mod n 8 ltac:(lia)) as DM.
    destruct (Nat.lt_ge_cases (n / 8) (length l)).
    + rewrite right_shift_eq by auto. rewrite be_value_app, be_value_repeat0, length_rs.
      rewrite rs_value; [|apply mod8|reflexivity|now apply Forall_firstn].
      rewrite N.mod_0_l by (apply N.pow_nonzero; lia).
      rewrite be_value_firstn_div by (auto; lia).
      replace (N.of_nat n) with (8 * N.of_nat (n / 8) + N.of_nat (n mod 8))%N by lia.
      rewrite N.pow_add_r, <- pow256.
      rewrite <- N.div_div by (apply N.pow_nonzero; lia). rewrite !N.mul_0_l, !N.add_0_l. reflexivity.
    + unfold right_shift_array.
      destruct (Nat.eqb_spec (length l) 0).
      * destruct l; [|simpl in e; lia]. simpl. change (be_value []) with 0%N.
        rewrite N.div_0_l; auto. apply N.pow_nonzero; lia.
      * destruct (Nat.eqb_spec n 0); [lia|]. cbn [orb].
        destruct (Nat.leb_spec (length l) (n / 8)); [|lia].
        rewrite be_value_repeat0. symmetry. apply N.div_small.
        pose proof (be_value_bound _ OK). eapply N.lt_le_trans; [eassumption|].
        rewrite pow256. apply N.pow_le_mono_r; lia.
Qed.

Lemma lshift_loop_length : forall n i b s, length (lshift_loop n i b s) = length b.
Proof. induction n; intros; cbn [lshift_loop]; auto. rewrite IHn. apply length_upd. Qed.

Lemma lshift_loop_nth : forall n i b s j, i + n < length b ->
  nth j (lshift_loop n i b s) 0%N =
  if (i <=? j) && (j <? i + n) then ls_byte s (nth j b 0%N) (nth (j + 1) b 0%N) else nth j b 0%N.
Proof.
  induction n; intros; cbn [lshift_loop].
  - destruct (Nat.leb_spec i j), (Nat.ltb_spec j (i + 0)); simpl; auto; lia.
  - rewrite IHn by (rewrite length_upd; lia).
    destruct (Nat.leb_spec (S i) j); cbn [andb].
    + destruct (Nat.leb_spec i j); [|lia]. cbn [andb].
      destruct (Nat.ltb_spec j (S i + n)); destruct (Nat.ltb_spec j (i + S n)); try lia;
      rewrite !nth_upd_neq by lia; reflexivity.
    + destruct (Nat.leb_spec i j); cbn [andb].
      * assert (j = i) by lia. subst. destruct (Nat.ltb_spec i (i + S n)); [|lia].
        rewrite nth_upd_eq by lia. reflexivity.
      * rewrite nth_upd_neq by lia. reflexivity.
Qed.

Lemma nth_ls : forall l s j, j < length l ->
  nth j (ls s l) 0%N = ls_byte s (nth j l 0%N) (nth (j + 1) l 0%N).
Proof.
  induction l; intros; [simpl in H; lia|]. destruct j.
  - cbn [ls nth]. f_equal. destruct l; reflexivity.
  - cbn [ls nth Nat.add]. apply IHl. simpl in H. lia.
Qed.

Lemma ls_byte_0 : forall s b, (s < 8)%N -> byte_ok b -> ls_byte s b 0 = (N.shiftl b s mod 256)%N.
Proof.
  intros. rewrite ls_byte_value; auto; [|reflexivity].
  rewrite N.div_0_l by (apply N.pow_nonzero; lia). rewrite N.shiftl_mul_pow2. f_equal. lia.
Qed.

Lemma left_shift_eq : forall l n, bytes_ok l -> n / 8 < length l -> n <> 0 ->
  left_shift_array l n =
  ls (N.of_nat (n mod 8)) (skipn (n / 8) l) ++ repeat 0%N (n / 8).
Proof.
  intros l n OK LT NZ. unfold left_shift_array.
  destruct (Nat.eqb_spec (length l) 0); [lia|]. destruct (Nat.eqb_spec n 0); [lia|]. cbn [orb].
  destruct (Nat.leb_spec (length l) (n / 8)); [lia|].
  set (sb := n / 8) in *. set (s := N.of_nat (n mod 8)).
  assert (s < 8)%N as Hs by apply mod8.
  set (moved := skipn sb l ++ repeat 0%N sb).
  assert (length moved = length l) as LM.
  { unfold moved. rewrite app_length, repeat_length, skipn_length. lia. }
  apply nth_ext_len with (d := 0%N).
  - rewrite length_upd, lshift_loop_length, LM, app_length, repeat_length, length_ls, skipn_length. lia.
  - intros j Hj. rewrite length_upd, lshift_loop_length, LM in Hj.
    assert (forall k, k < length l - sb -> nth k moved 0%N = nth k (skipn sb l) 0%N) as Mlo.
    { intros. unfold moved. rewrite app_nth1 by (rewrite skipn_length; lia). reflexivity. }
    destruct (Nat.eq_dec j (length l - sb - 1)) as [E|E].
    + rewrite <- E. rewrite nth_upd_eq by (rewrite lshift_loop_length; lia).
      rewrite lshift_loop_nth by lia.
      rewrite Nat.ltb_irrefl || (replace (j <? 0 + j) with false by (symmetry; apply Nat.ltb_ge; lia)). cbn [Nat.leb andb].
      rewrite app_nth1 by (rewrite length_ls, skipn_length; lia).
      rewrite nth_ls by (rewrite skipn_length; lia). rewrite Mlo by lia.
      rewrite (nth_overflow (skipn sb l) (n := j + 1)) by (rewrite skipn_length; lia).
      symmetry. apply ls_byte_0; auto. apply bytes_ok_nth. now apply Forall_skipn.
    + rewrite nth_upd_neq by auto. rewrite lshift_loop_nth by lia. cbn [Nat.leb andb].
      destruct (Nat.ltb_spec j (0 + (length l - sb - 1))).
      * rewrite app_nth1 by (rewrite length_ls, skipn_length; lia).
        rewrite nth_ls by (rewrite skipn_length; lia). rewrite !Mlo by lia. reflexivity.
      * unfold moved. rewrite !app_nth2 by (try rewrite length_ls; rewrite skipn_length; lia).
        now rewrite !repeat_nth0.
Qed.

Lemma left_shift_length : forall l n, length (left_shift_array l n) = length l.
Proof.
  intros. unfold left_shift_array. destruct (_ || _); auto. destruct (Nat.leb_spec (length l) (n / 8)).
  - apply repeat_length.
  - rewrite length_upd, lshift_loop_length, app_length, repeat_length, skipn_length. lia.
Qed.

Lemma be_value_skipn_mod : forall l n, n <= length l -> bytes_ok l ->
  be_value (skipn n l) = (be_value l mod 256 ^ N.of_nat (length l - n))%N.
Proof.
  intros. rewrite <- (firstn_skipn n l) at 2. rewrite be_value_app, skipn_length.
  rewrite N.add_comm, N.mod_add by (apply N.pow_nonzero; lia). symmetry. apply N.mod_small.
  pose proof (be_value_bound (skipn n l) ltac:(apply Forall_skipn; auto)).
  now rewrite skipn_length in H1.
Qed.

Lemma left_shift_value : forall l n, bytes_ok l ->
  be_value (left_shift_array l n) = ((be_value l * 2 ^ N.of_nat n) mod 256 ^ N.of_nat (length l))%N.
Proof.
  intros l n OK. destruct (Nat.eq_dec n 0).
  - subst. unfold left_shift_array. rewrite orb_true_r. simpl (2 ^ N.of_nat 0)%N.
    rewrite N.mul_1_r. symmetry. apply N.mod_small. now apply be_value_bound.
  - pose proof (Nat.div_mod n 8 ltac:(lia)) as DM.
    destruct (Nat.lt_ge_cases (n / 8) (length l)).
    + rewrite left_shift_eq by auto. rewrite be_value_app, be_value_repeat0, repeat_length.
      rewrite ls_value; [|apply mod8|now apply Forall_skipn].
      rewrite be_value_skipn_mod by (auto; lia). rewrite skipn_length.
      rewrite N.mul_mod_idemp_l by (apply N.pow_nonzero; lia).
      rewrite N.add_0_r.
      assert (256 ^ N.of_nat (n / 8) <> 0)%N by (apply N.pow_nonzero; lia).
      assert (256 ^ N.of_nat (length l - n / 8) <> 0)%N by (apply N.pow_nonzero; lia).
      rewrite <- N.mul_mod_distr_r by auto.
      rewrite <- N.pow_add_r. f_equal.
      * rewrite <- N.mul_assoc. f_equal. rewrite pow256, <- N.pow_add_r. f_equal. lia.
      * f_equal. lia.
    + unfold left_shift_array.
      destruct (Nat.eqb_spec (length l) 0).
      * destruct l; [|simpl in e; lia]. reflexivity.
      * destruct (Nat.eqb_spec n 0); [lia|]. cbn [orb].
        destruct (Nat.leb_spec (length l) (n / 8)); [|lia].
        rewrite be_value_repeat0. symmetry.
        replace (N.of_nat n) with (8 * N.of_nat (length l) + N.of_nat (n - 8 * length l))%N by lia.
        rewrite N.pow_add_r, <- pow256.
        rewrite (N.mul_comm (256 ^ _)), N.mul_assoc. apply N.mod_mul. apply N.pow_nonzero; lia.
Qed.

(* ---- byte swaps ---- *)

(* swapping reverses the little-endian byte string *)
Lemma land_byte : forall x, N.land x 255 = (x mod 256)%N.
Proof. intros. change 255%N with (N.ones 8). now rewrite N.land_ones. Qed.

Lemma swap16_value : forall d, swap16 d = be_value (le16 d).
Proof.
  intros. unfold swap16, le16. rewrite !land_byte, N.shiftr_div_pow2, N.shiftl_mul_pow2, N.lor_comm.
  rewrite lor_add by (apply N.mod_upper_bound; discriminate).
  rewrite !be_value_cons. cbn [length]. change (be_value []) with 0%N.
  change (2 ^ 8)%N with 256%N. change (256 ^ N.of_nat 1)%N with 256%N. change (256 ^ N.of_nat 0)%N with 1%N.
  lia.
Qed.

Lemma swap16_bound : forall d, (swap16 d < 2 ^ 16)%N.
Proof.
  intros. rewrite swap16_value. change (2 ^ 16)%N with (256 ^ N.of_nat (length (le16 d)))%N.
  apply be_value_bound. repeat constructor; apply N.mod_upper_bound; discriminate.
Qed.

Lemma land_ffff : forall x, N.land x 0xffff = (x mod 65536)%N.
Proof. intros. change 0xffff%N with (N.ones 16). now rewrite N.land_ones. Qed.
Lemma land_ffffffff : forall x, N.land x 0xffffffff = (x mod 2 ^ 32)%N.
Proof. intros. change 0xffffffff%N with (N.ones 32). now rewrite N.land_ones. Qed.

Lemma le16_mod : forall d, le16 (d mod 65536) = le16 d.
Proof.
  intros. unfold le16. change 65536%N with (256 * 256)%N.
  rewrite N.mod_mul_r by discriminate. f_equal; [|f_equal].
  - rewrite N.mul_comm, N.mod_add, N.mod_mod by discriminate. reflexivity.
  - rewrite N.add_comm, N.mul_comm, N.div_add_l, (N.div_small (d mod 256)), N.add_0_r, N.mod_mod; try discriminate; auto.
    apply N.mod_upper_bound. discriminate.
Qed.

Lemma swap32_value : forall d, swap32 d = be_value (le32 d).
Proof.
  intros. unfold swap32. rewrite !land_ffff, N.shiftr_div_pow2, N.shiftl_mul_pow2, N.lor_comm.
  rewrite lor_add by apply swap16_bound. rewrite !swap16_value, !le16_mod.
  unfold le32, le16. rewrite !be_value_cons. cbn [length]. change (be_value []) with 0%N.
  change (2 ^ 16)%N with 65536%N. rewrite N.div_div by discriminate.
  change (65536 * 256)%N with 16777216%N.
  change (256 ^ N.of_nat 3)%N with 16777216%N. change (256 ^ N.of_nat 2)%N with 65536%N.
  change (256 ^ N.of_nat 1)%N with 256%N. change (256 ^ N.of_nat 0)%N with 1%N.
  lia.
Qed.

Lemma swap32_bound : forall d, (swap32 d < 2 ^ 32)%N.
Proof.
  intros. rewrite swap32_value. change (2 ^ 32)%N with (256 ^ N.of_nat (length (le32 d)))%N.
  apply be_value_bound. repeat constructor; apply N.mod_upper_bound; discriminate.
Qed.

Lemma le32_mod : forall d, le32 (d mod 2 ^ 32) = le32 d.
Proof.
  intros. unfold le32.
  change (2 ^ 32)%N with (256 * 256 * 256 * 256)%N.
  change 65536%N with (256 * 256)%N. change 16777216%N with (256 * 256 * 256)%N.
  pose proof (N.div_mod d (256*256*256*256) ltac:(discriminate)) as E.
  set (q := (d / (256*256*256*256))%N) in *. set (r := (d mod (256*256*256*256))%N) in *.
  clearbody q r. subst d.
  apply f_equal2; [|apply f_equal2; [|apply f_equal2; [|apply f_equal2; [|reflexivity]]]].
  - replace (256 * 256 * 256 * 256 * q + r)%N with (r + (256 * 256 * 256 * q) * 256)%N by lia.
    now rewrite N.mod_add by discriminate.
  - replace (256 * 256 * 256 * 256 * q + r)%N with ((256 * 256 * 256 * q) * 256 + r)%N by lia.
    rewrite N.div_add_l by discriminate.
    replace (256 * 256 * 256 * q + r / 256)%N with (r / 256 + (256 * 256 * q) * 256)%N by lia.
    now rewrite N.mod_add by discriminate.
  - replace (256 * 256 * 256 * 256 * q + r)%N with ((256 * 256 * q) * (256 * 256) + r)%N by lia.
    rewrite N.div_add_l by discriminate.
    replace (256 * 256 * q + r / (256 * 256))%N with (r / (256 * 256) + (256 * q) * 256)%N by lia.
    now rewrite N.mod_add by discriminate.
  - replace (256 * 256 * 256 * 256 * q + r)%N with ((256 * q) * (256 * 256 * 256) + r)%N by lia.
    rewrite N.div_add_l by discriminate.
    rewrite N.add_comm. rewrite (N.mul_comm 256 q). now rewrite N.mod_add by discriminate.
Qed.

Lemma swap64_value : forall d, swap64 d = be_value (le32 d ++ le32 (d / 2 ^ 32)).
Proof.
  intros. unfold swap64. rewrite !land_ffffffff, N.shiftr_div_pow2, N.shiftl_mul_pow2, N.lor_comm.
  rewrite lor_add by apply swap32_bound. rewrite !swap32_value, !le32_mod.
  rewrite be_value_app. f_equal.
Qed.
