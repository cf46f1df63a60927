(** Lemmas about Base 64. *)
From Coq Require Import List NArith Bool Arith Lia ZifyBool ZifyNat ZifyN.
From Verif Require ByteMath_Shift_Proofs.
From Verif Require Import Base Der_Model Der_Proofs Base64_Model Base64_Spec.
Import ListNotations.

Lemma list3_ind : forall (A : Type) (P : list A -> Prop), P [] -> (forall a, P [a]) -> (forall a b, P [a; b]) ->
  (forall a b c l, P l -> P (a :: b :: c :: l)) -> forall l, P l.
Proof.
  intros A P H0 H1 H2 H3. fix F 1. intros [|a [|b [|c l]]]; [exact H0|apply H1|apply H2|apply H3, F].
Qed.

Lemma byte_cases : forall P : N -> bool, forallb P (map N.of_nat (seq 0 256)) = true -> forall b, byte_ok b -> P b = true.
Proof.
  intros P H b B. rewrite forallb_forall in H. apply H. apply in_map_iff. exists (N.to_nat b). split; [lia|]. apply in_seq. unfold byte_ok in B. lia.
Qed.

Lemma sextets_fuel : forall f l, length l <= f -> sextets f l = sextets (length l) l.
Proof.
  induction f as [f IH] using lt_wf_ind. intros l L. destruct f as [|f]; [destruct l; [auto|cbn in L; lia]|].
  destruct l as [|x l]; auto. cbn [length] in *. cbn [sextets]. f_equal.
  assert (K: length (skipn 6 (x :: l)) <= length l) by (rewrite skipn_length; cbn [length]; lia).
  rewrite (IH f) by lia. symmetry. apply IH; lia.
Qed.

Lemma number_app : forall a b, number (a ++ b) = (number a * 2 ^ N.of_nat (length b) + number b)%N.
Proof.
  intros a b. revert a. induction b as [|x b IH] using rev_ind; intros a.
  - rewrite app_nil_r. cbn. lia.
  - rewrite app_assoc. unfold number in *. rewrite !fold_left_app. cbn [fold_left]. specialize (IH a). rewrite fold_left_app in IH. rewrite IH.
    rewrite app_length. cbn [length]. replace (N.of_nat (length b + 1)) with (N.succ (N.of_nat (length b))) by lia. rewrite N.pow_succ_r'. lia.
Qed.

(** The parts of a byte. *)
Lemma parts : forall b, byte_ok b ->
  number (firstn 6 (bits b)) = N.shiftr b 2 /\ number (skipn 6 (bits b)) = N.land b 3 /\ number (firstn 4 (bits b)) = N.shiftr b 4 /\
  number (skipn 4 (bits b)) = N.land b 15 /\ number (firstn 2 (bits b)) = N.land (N.shiftr b 6) 3 /\ number (skipn 2 (bits b)) = N.land b 63.
Proof.
  intros b B.
  assert (H: ((number (firstn 6 (bits b)) =? N.shiftr b 2) && (number (skipn 6 (bits b)) =? N.land b 3) && (number (firstn 4 (bits b)) =? N.shiftr b 4) &&
    (number (skipn 4 (bits b)) =? N.land b 15) && (number (firstn 2 (bits b)) =? N.land (N.shiftr b 6) 3) && (number (skipn 2 (bits b)) =? N.land b 63))%N = true)
    by (revert b B; refine (byte_cases (fun b => _) _); vm_compute; reflexivity).
  repeat (apply andb_prop in H; destruct H as [H ?]). repeat split; apply N.eqb_eq; auto.
Qed.

Lemma lor_add : forall x y n, (y < 2 ^ n)%N -> N.lor (N.shiftl x n) y = (x * 2 ^ n + y)%N.
Proof.
  intros x y n H. rewrite N.shiftl_mul_pow2. now apply ByteMath_Shift_Proofs.lor_add.
Qed.

Lemma bits_length : forall b, length (bits b) = 8.
Proof. reflexivity. Qed.

Lemma take_bits : forall a b c l, exists x,
  bits a ++ bits b ++ bits c ++ l = (firstn 6 (bits a)) ++ (skipn 6 (bits a) ++ firstn 4 (bits b)) ++ (skipn 4 (bits b) ++ firstn 2 (bits c)) ++ skipn 2 (bits c) ++ x /\ x = l.
Proof. intros. exists l. split; reflexivity. Qed.

Lemma sextets_step : forall f (h l : list bool), length h = 6 -> sextets (S f) (h ++ l) = number h :: sextets f l.
Proof.
  intros f h l L. destruct h as [|h0 [|h1 [|h2 [|h3 [|h4 [|h5 [|]]]]]]]; cbn [length] in L; try lia. reflexivity.
Qed.

Definition s1 (a : N) : N := N.shiftr a 2.
Definition s2 (a b : N) : N := N.lor (N.shiftl (N.land a 3) 4) (N.shiftr b 4).
Definition s3 (b c : N) : N := N.lor (N.shiftl (N.land b 15) 2) (N.land (N.shiftr c 6) 3).
Definition s4 (c : N) : N := N.land c 63.

Lemma small_parts : forall b, byte_ok b -> (N.shiftr b 2 < 64 /\ N.land b 3 < 4 /\ N.shiftr b 4 < 16 /\ N.land b 15 < 16 /\ N.land (N.shiftr b 6) 3 < 4 /\ N.land b 63 < 64)%N.
Proof.
  intros b B.
  assert (H: ((N.shiftr b 2 <? 64) && (N.land b 3 <? 4) && (N.shiftr b 4 <? 16) && (N.land b 15 <? 16) && (N.land (N.shiftr b 6) 3 <? 4) && (N.land b 63 <? 64))%N = true)
    by (revert b B; refine (byte_cases (fun b => _) _); vm_compute; reflexivity).
  lia.
Qed.

Lemma s2_number : forall a b, byte_ok a -> byte_ok b -> number (skipn 6 (bits a) ++ firstn 4 (bits b)) = s2 a b /\ (s2 a b < 64)%N.
Proof.
  intros a b A B. pose proof (small_parts a A). pose proof (small_parts b B). pose proof (parts a A). pose proof (parts b B).
  unfold s2. rewrite lor_add by (change (2 ^ 4)%N with 16%N; lia). rewrite number_app.
  destruct H1 as (_ & -> & _). destruct H2 as (_ & _ & -> & _). split; [reflexivity|].
  change (2 ^ 4)%N with 16%N. lia.
Qed.

Lemma s3_number : forall a b, byte_ok a -> byte_ok b -> number (skipn 4 (bits a) ++ firstn 2 (bits b)) = s3 a b /\ (s3 a b < 64)%N.
Proof.
  intros a b A B. pose proof (small_parts a A). pose proof (small_parts b B). pose proof (parts a A). pose proof (parts b B).
  unfold s3. rewrite lor_add by (change (2 ^ 2)%N with 4%N; lia). rewrite number_app.
  destruct H1 as (_ & _ & _ & -> & _). destruct H2 as (_ & _ & _ & _ & -> & _). split; [reflexivity|].
  change (2 ^ 2)%N with 4%N. lia.
Qed.

Lemma base64_3 : forall a b c t, byte_ok a -> byte_ok b -> byte_ok c ->
  base64 (a :: b :: c :: t) = [character (s1 a); character (s2 a b); character (s3 b c); character (s4 c)] ++ base64 t.
Proof.
  intros a b c t A B C. unfold base64. cbn [map concat].
  destruct (take_bits a b c (concat (map bits t))) as (x & -> & ->). set (l := concat (map bits t)).
  match goal with |- context [sextets (length ?x) ?x] => rewrite <- (sextets_fuel (S (S (S (S (20 + length l))))) x) end.
  2: { rewrite !app_length, !firstn_length, !skipn_length, !bits_length. lia. }
  rewrite sextets_step by reflexivity. rewrite sextets_step by reflexivity. rewrite sextets_step by reflexivity. rewrite sextets_step by reflexivity.
  rewrite sextets_fuel by lia. cbn [map length app].
  destruct (parts a A) as (-> & _). destruct (parts c C) as (_ & _ & _ & _ & _ & ->).
  destruct (s2_number a b A B) as (-> & _). destruct (s3_number b c B C) as (-> & _).
  unfold s1, s4. do 4 f_equal. f_equal. f_equal. rewrite map_length.
  replace (S (S (S (S (length (sextets (length l) l)))))) with (length (sextets (length l) l) + 1 * 4) by lia. rewrite Nat.mod_add by lia. reflexivity.
Qed.

Lemma base64_1 : forall a, byte_ok a -> base64 [a] = [character (s1 a); character (N.shiftl (N.land a 3) 4); 61; 61]%N.
Proof.
  intros a A. unfold base64. cbn [map concat]. rewrite app_nil_r.
  destruct (parts a A) as (P1 & P2 & _). unfold bits in P1, P2 |- *. cbn [map length firstn skipn] in P1, P2 |- *.
  cbn [sextets app repeat firstn skipn map]. rewrite P1. cbn [length Nat.modulo Nat.divmod fst Nat.sub snd app repeat].
  change [N.testbit a 1; N.testbit a 0; false; false; false; false] with ([N.testbit a 1; N.testbit a 0] ++ [false; false; false; false]).
  rewrite number_app, P2. unfold s1. do 2 f_equal. cbn [length N.of_nat]. rewrite N.shiftl_mul_pow2. f_equal. change (number [false; false; false; false]) with 0%N.
  change (N.pos (Pos.of_succ_nat 3)) with 4%N. lia.
Qed.

Lemma base64_2 : forall a b, byte_ok a -> byte_ok b ->
  base64 [a; b] = [character (s1 a); character (s2 a b); character (N.shiftl (N.land b 15) 2); 61]%N.
Proof.
  intros a b A B. unfold base64. cbn [map concat]. rewrite app_nil_r.
  destruct (parts a A) as (P1 & P2 & _). destruct (parts b B) as (_ & _ & Q1 & Q2 & _). destruct (s2_number a b A B) as (Q3 & _).
  unfold bits in P1, P2, Q1, Q2, Q3 |- *. cbn [map length firstn skipn app] in P1, P2, Q1, Q2, Q3 |- *.
  cbn [sextets app repeat firstn skipn map]. rewrite P1, Q3. cbn [length Nat.modulo Nat.divmod fst Nat.sub snd app repeat].
  change [N.testbit b 3; N.testbit b 2; N.testbit b 1; N.testbit b 0; false; false] with ([N.testbit b 3; N.testbit b 2; N.testbit b 1; N.testbit b 0] ++ [false; false]).
  rewrite number_app, Q2. unfold s1. do 3 f_equal. cbn [length N.of_nat]. rewrite N.shiftl_mul_pow2. f_equal. change (number [false; false]) with 0%N.
  change (N.pos (Pos.of_succ_nat 1)) with 2%N. lia.
Qed.

Lemma base64_length_spec : forall data, bytes_ok data -> length (base64 data) = (length data + 2) / 3 * 4.
Proof.
  induction data as [| | |a b c t IH] using list3_ind; intros B.
  - reflexivity.
  - inversion B; subst. rewrite base64_1 by auto. reflexivity.
  - inversion B as [|? ? ? B2]; subst. inversion B2; subst. rewrite base64_2 by auto. reflexivity.
  - inversion B as [|? ? ? B2]; subst. inversion B2 as [|? ? ? B3]; subst. inversion B3; subst. rewrite base64_3 by auto. rewrite app_length, IH by auto.
    cbn [length]. replace (S (S (S (length t))) + 2) with (length t + 2 + 1 * 3) by lia. rewrite Nat.div_add by lia. lia.
Qed.

Lemma put_spec : forall p x q i, (i < 64)%N -> put (p ++ x :: q) (length p) i = Ret ((p ++ [character i]) ++ q).
Proof.
  intros p x q i L. unfold put.
  assert (E: rd encoding (N.to_nat i) = Ret (character i)).
  { assert (H: (match rd encoding (N.to_nat i) with Ret c => (c =? character i)%N | _ => false end) = true).
    { assert (F: forallb (fun k => match rd encoding k with Ret c => (c =? character (N.of_nat k))%N | _ => false end) (seq 0 64) = true) by (vm_compute; reflexivity).
      rewrite forallb_forall in F. specialize (F (N.to_nat i)). rewrite N2Nat.id in F. apply F. apply in_seq. lia. }
    destruct (rd encoding (N.to_nat i)); try discriminate. apply N.eqb_eq in H. congruence. }
  rewrite E. cbn [bind]. rewrite wr_end by (cbn; lia). reflexivity.
Qed.

Lemma put_spec' : forall p q out i, (i < 64)%N -> out = length p -> 1 <= length q -> put (p ++ q) out i = Ret ((p ++ [character i]) ++ skipn 1 q).
Proof. intros p [|x q] out i L -> Q; [cbn in Q; lia|]. now apply put_spec. Qed.

Ltac wput := rewrite put_spec' by (rewrite ?app_length, ?skipn_length; cbn [length]; lia); cbn [bind].

Lemma groups_rest : forall data p q, bytes_ok data -> length (base64 data) <= length q ->
  bind (groups data (p ++ q) (length p)) (fun '(d, b, o) => rest d b o) =
    Ret (p ++ base64 data ++ skipn (length (base64 data)) q, length p + length (base64 data)).
Proof.
  induction data as [| a | a b |a b c t IH] using list3_ind; intros p q B L.
  - cbn. rewrite Nat.add_0_r. reflexivity.
  - inversion B as [|? ? A _]; subst. rewrite base64_1 in * by auto. cbn [groups bind rest length] in *. pose proof (small_parts a A) as S1.
    assert (V: N.land (N.shiftl (N.land a 3) 4) 255 = N.shiftl (N.land a 3) 4).
    { change 255%N with (N.ones 8). rewrite N.land_ones. apply N.mod_small. rewrite N.shiftl_mul_pow2. change (2 ^ 4)%N with 16%N. change (2 ^ 8)%N with 256%N. lia. }
    assert (V2: (N.shiftl (N.land a 3) 4 < 64)%N) by (rewrite N.shiftl_mul_pow2; change (2 ^ 4)%N with 16%N; lia).
    rewrite V. wput. wput. rewrite wr_end' by (rewrite ?app_length, ?skipn_length; cbn [length]; lia). cbn [bind length].
    rewrite wr_end' by (rewrite ?app_length, ?skipn_length; cbn [length]; lia). cbn [bind length]. rewrite !skipn_skipn.
    f_equal. f_equal; [|lia]. rewrite <- !app_assoc. reflexivity.
  - inversion B as [|? ? A B2]; subst. inversion B2 as [|? ? Bb _]; subst. rewrite base64_2 in * by auto. cbn [groups bind rest length] in *.
    pose proof (small_parts a A) as S1. pose proof (small_parts b Bb) as S2. pose proof (s2_number a b A Bb) as (_ & S3).
    assert (V: N.land (N.shiftl (N.land a 3) 4) 255 = N.shiftl (N.land a 3) 4).
    { change 255%N with (N.ones 8). rewrite N.land_ones. apply N.mod_small. rewrite N.shiftl_mul_pow2. change (2 ^ 4)%N with 16%N. change (2 ^ 8)%N with 256%N. lia. }
    assert (V2: (N.shiftl (N.land b 15) 2 < 64)%N) by (rewrite N.shiftl_mul_pow2; change (2 ^ 2)%N with 4%N; lia).
    rewrite V. wput. fold (s2 a b). wput. wput.
    rewrite wr_end' by (rewrite ?app_length, ?skipn_length; cbn [length]; lia). cbn [bind length]. rewrite !skipn_skipn.
    f_equal. f_equal; [|lia]. rewrite <- !app_assoc. reflexivity.
  - inversion B as [|? ? A B2]; subst. inversion B2 as [|? ? Bb B3]; subst. inversion B3 as [|? ? Bc Bt]; subst. rewrite base64_3 in * by auto.
    rewrite app_length in L. cbn [length] in L. cbn [groups].
    pose proof (small_parts a A) as S1. pose proof (small_parts c Bc) as S2. pose proof (s2_number a b A Bb) as (_ & S3). pose proof (s3_number b c Bb Bc) as (_ & S4).
    fold (s1 a). fold (s2 a b). fold (s3 b c). fold (s4 c). unfold s1 at 1. unfold s4 at 1. wput. wput. wput. wput.
    rewrite !skipn_skipn. rewrite <- !app_assoc. cbn [app Nat.add].
    replace (p ++ character (N.shiftr a 2) :: character (s2 a b) :: character (s3 b c) :: character (N.land c 63) :: skipn 4 q)
      with ((p ++ [character (s1 a); character (s2 a b); character (s3 b c); character (s4 c)]) ++ skipn 4 q) by (rewrite <- app_assoc; reflexivity).
    replace (S (S (S (S (length p))))) with (length (p ++ [character (s1 a); character (s2 a b); character (s3 b c); character (s4 c)])) by (rewrite app_length; cbn [length]; lia).
    rewrite IH by (auto; rewrite skipn_length; lia). f_equal. rewrite <- !app_assoc. cbn [app length]. rewrite skipn_skipn. 
    rewrite app_length. cbn [length Nat.add]. f_equal. lia.
Qed.

Lemma base64_length_ok : forall SIZE n, (4 * n + 12 <= SIZE)%N -> base64_length SIZE n = ((n + 2) / 3 * 4 + 1)%N.
Proof.
  intros SIZE n L. unfold base64_length. rewrite (N.mod_small (4 * n)) by lia.
  assert (A: (4 * n / 3 <= 4 * n)%N) by (apply N.div_le_upper_bound; lia).
  rewrite (N.mod_small (4 * n / 3 + 3)) by lia.
  assert (E: ((4 * n / 3 + 3) / 4 = (n + 2) / 3)%N).
  { replace (4 * n / 3 + 3)%N with ((4 * n + 9) / 3)%N by (replace (4 * n + 9)%N with (4 * n + 3 * 3)%N by lia; rewrite N.div_add by lia; lia).
    rewrite N.div_div by lia. pose proof (N.div_mod (4 * n + 9) (3 * 4) ltac:(lia)). pose proof (N.mod_lt (4 * n + 9) (3 * 4) ltac:(lia)).
    pose proof (N.div_mod (n + 2) 3 ltac:(lia)). pose proof (N.mod_lt (n + 2) 3 ltac:(lia)). lia. }
  rewrite E. apply N.mod_small.
  pose proof (N.div_mod (n + 2) 3 ltac:(lia)). pose proof (N.mod_lt (n + 2) 3 ltac:(lia)). lia.
Qed.

(** Decoding *)
Lemma low6_spec : forall v, (v < 64)%N -> decoded_character (character v) = Some v.
Proof.
  intros v L. unfold decoded_character, character.
  destruct (v <? 26)%N eqn:A; [|destruct (v <? 52)%N eqn:B; [|destruct (v <? 62)%N eqn:C; [|destruct (v =? 62)%N eqn:D]]];
    repeat match goal with |- context [if ?c then _ else _] => let E := fresh in destruct c eqn:E end; try (f_equal; lia); try lia.
Qed.

Lemma low6_number : forall l, length l = 6 -> low6 (number l) = l.
Proof.
  intros l L. destruct l as [|a [|b [|c [|d [|e [|f [|]]]]]]]; cbn [length] in L; try lia.
  destruct a, b, c, d, e, f; reflexivity.
Qed.

Lemma number_bits : forall b, byte_ok b -> number (bits b) = b.
Proof. intros b B. apply N.eqb_eq. revert b B. refine (byte_cases (fun b => _) _). vm_compute. reflexivity. Qed.

Lemma number_bound : forall l, (number l < 2 ^ N.of_nat (length l))%N.
Proof.
  induction l as [|x l IH] using rev_ind; [cbn; lia|]. unfold number in *. rewrite fold_left_app, app_length. cbn [fold_left length].
  replace (N.of_nat (length l + 1)) with (N.succ (N.of_nat (length l))) by lia. rewrite N.pow_succ_r'. destruct x; lia.
Qed.

Definition chars (text : list N) : list bool := concat (map (fun c => match decoded_character c with Some v => low6 v | None => [] end) text).

Lemma chars_sextets : forall f l, length l <= f -> exists k, k < 6 /\ chars (map character (sextets f l)) = l ++ repeat false k.
Proof.
  induction f as [|f IH]; intros l L. { destruct l; [|cbn in L; lia]. exists 0. split; [lia|reflexivity]. }
  destruct l as [|x l]. { exists 0. split; [lia|reflexivity]. }
  cbn [sextets map]. unfold chars. cbn [map concat]. fold (chars (map character (sextets f (skipn 6 (x :: l))))).
  assert (Z: 1 <= length (x :: l)) by (cbn [length]; lia). remember (x :: l) as l0 eqn:E0. clear E0.
  assert (L6: length (firstn 6 (l0 ++ repeat false 5)) = 6) by (rewrite firstn_length, app_length, repeat_length; lia).
  rewrite low6_spec by (pose proof (number_bound (firstn 6 (l0 ++ repeat false 5))) as Q; rewrite L6 in Q; exact Q).
  rewrite low6_number by auto.
  destruct (le_lt_dec 6 (length l0)) as [G|G].
  - destruct (IH (skipn 6 l0)) as (k & K & ->). { rewrite skipn_length. lia. }
    exists k. split; auto. rewrite firstn_app. replace (6 - length l0) with 0 by lia. rewrite firstn_O, app_nil_r, app_assoc, firstn_skipn. reflexivity.
  - rewrite (skipn_all2 l0) by lia. replace (sextets f []) with (@nil N) by (destruct f; reflexivity).
    exists (6 - length l0). split; [lia|]. unfold chars. cbn [map concat]. rewrite app_nil_r.
    rewrite firstn_app, firstn_all2 by lia. f_equal.
    destruct l0 as [|? [|? [|? [|? [|? [|]]]]]]; cbn [length] in *; try lia; reflexivity.
Qed.

Lemma octets_bits : forall data f k, bytes_ok data -> k < 8 -> length data < f -> octets f (concat (map bits data) ++ repeat false k) = data.
Proof.
  induction data as [|b data IH]; intros f k B K F; (destruct f as [|f]; [cbn in F; lia|]).
  - cbn [map concat app octets]. rewrite repeat_length. replace (k <? 8) with true by lia. reflexivity.
  - inversion B; subst. cbn [map concat octets]. rewrite <- app_assoc. rewrite app_length, bits_length.
    replace (8 + _ <? 8) with false by lia. cbn [length] in F.
    change (skipn 8 (bits b ++ concat (map bits data) ++ repeat false k)) with (concat (map bits data) ++ repeat false k).
    change (firstn 8 (bits b ++ concat (map bits data) ++ repeat false k)) with (bits b). rewrite number_bits by auto. f_equal. apply IH; auto; lia.
Qed.

Lemma bits_concat_length : forall data, length (concat (map bits data)) = 8 * length data.
Proof. induction data; cbn [map concat length]; auto. rewrite app_length, bits_length, IHdata. lia. Qed.

Lemma decoded_base64 : forall data, bytes_ok data -> decoded (base64 data) = data.
Proof.
  intros data B. unfold decoded, base64. set (l := concat (map bits data)).
  rewrite map_app, concat_app. fold (chars (map character (sextets (length l) l))).
  replace (concat (map _ (repeat 61%N _))) with (@nil bool).
  2: { generalize ((4 - length (map character (sextets (length l) l)) mod 4) mod 4). induction n; cbn [repeat map concat]; auto. }
  rewrite app_nil_r. destruct (chars_sextets (length l) l) as (k & K & ->); [lia|].
  destruct data as [|b data]. { subst l. cbn [map concat app]. rewrite repeat_length. destruct k; auto. cbn [octets]. rewrite repeat_length. replace (S k <? 8) with true by lia. auto. }
  apply octets_bits; [auto|lia|]. rewrite app_length. subst l. rewrite bits_concat_length. cbn [length]. lia.
Qed.
