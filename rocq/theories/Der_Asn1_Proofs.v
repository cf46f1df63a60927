(** Integers, object identifiers and lengths of asn1_util.c. *)
From Coq Require Import List NArith Lia Bool Arith ZifyBool ZifyNat ZifyN.
From Verif Require Import Base Der_Model Der_Spec Der_Proofs Der_Sig_Proofs.
Import ListNotations.

Lemma skipn_nth_cons : forall (d : list N) n, n < length d -> skipn n d = nth n d 0%N :: skipn (S n) d.
Proof. induction d as [|x d IH]; intros n L; [cbn in L; lia|]. destruct n; auto. cbn [skipn nth]. rewrite (IH n) by (cbn in L; lia). reflexivity. Qed.

(** ** Encoding integers *)
Lemma pow8 : forall k, (2 ^ (8 * N.of_nat k) = 256 ^ N.of_nat k)%N.
Proof. intros. rewrite N.pow_mul_r. reflexivity. Qed.

Lemma pow_S : forall k, (256 ^ N.of_nat (S k) = 256 * 256 ^ N.of_nat k)%N.
Proof. intros. rewrite Nat2N.inj_succ, N.pow_succ_r'. reflexivity. Qed.

Lemma pow_pos : forall k, (0 < 256 ^ N.of_nat k)%N.
Proof. intros. apply N.neq_0_lt_0, N.pow_nonzero. lia. Qed.

Fixpoint down (v : N) (k : nat) : list N :=
  ((v / 256 ^ N.of_nat k) mod 256)%N :: match k with O => [] | S j => down v j end.

Lemma down_length : forall v k, length (down v k) = S k.
Proof. induction k; cbn [down length]; auto. Qed.

Lemma down_ok : forall v k, bytes_ok (down v k).
Proof.
  assert (G: forall x, byte_ok (x mod 256)) by (intros; unfold byte_ok; apply N.mod_lt; lia).
  induction k; cbn [down]; repeat constructor; auto.
Qed.

Lemma down_value : forall v k, be_value (down v k) = (v mod 256 ^ N.of_nat (S k))%N.
Proof.
  induction k.
  - cbn [down N.of_nat]. change (256 ^ 0)%N with 1%N. rewrite N.div_1_r, be_value_cons. cbn. lia.
  - cbn [down]. rewrite be_value_cons, down_length, IHk. rewrite (pow_S (S k)). rewrite (N.mul_comm 256).
    rewrite (N.mod_mul_r v (256 ^ N.of_nat (S k)) 256) by (pose proof (pow_pos (S k)); lia). lia.
Qed.

Lemma top_byte_spec : forall k v, (v < 256 ^ N.of_nat (S k))%N ->
  top_byte v k <= k /\ (v < 256 ^ N.of_nat (S (top_byte v k)))%N /\
  (top_byte v k = 0 \/ ((v / 256 ^ N.of_nat (top_byte v k)) mod 256 <> 0)%N).
Proof.
  induction k as [|k IH]; intros v L; cbn [top_byte].
  - auto.
  - rewrite pow8. destruct (_ =? 0)%N eqn:E.
    + apply N.eqb_eq in E. assert (L': (v < 256 ^ N.of_nat (S k))%N).
      { rewrite N.mod_small in E; [apply N.div_small_iff in E; auto; pose proof (pow_pos (S k)); lia|].
        apply N.div_lt_upper_bound; [pose proof (pow_pos (S k)); lia|]. rewrite (pow_S (S k)) in L. lia. }
      destruct (IH v L') as (A & B & C). split; [lia|]. split; auto.
    + apply N.eqb_neq in E. auto.
Qed.

Lemma put_bytes_spec : forall v k w r n, length w = 2 + n ->
  put_bytes v k (w ++ r) n
  = if length r <? S k then Err else Ret ((w ++ down v k) ++ skipn (S k) r, n + S k).
Proof.
  induction k as [|k IH]; intros w r n L; cbn [put_bytes]; rewrite app_length, L.
  - destruct (2 + n <? 2 + n + length r) eqn:E.
    + replace (length r <? 1) with false by lia. rewrite wr_end' by (cbn; lia). cbn [bind down N.of_nat]. change (8 * 0)%N with 0%N.
      change (2 ^ 0)%N with (256 ^ 0)%N. do 3 f_equal. lia.
    + replace (length r <? 1) with true by lia. reflexivity.
  - destruct (2 + n <? 2 + n + length r) eqn:E.
    + rewrite wr_end' by (cbn; lia). cbn [bind length]. rewrite IH by (rewrite app_length; cbn; lia). rewrite skipn_length.
      destruct (length r <? S (S k)) eqn:F.
      * replace (_ <? S k) with true by lia. reflexivity.
      * replace (_ <? S k) with false by lia. rewrite pow8. cbn [down]. rewrite <- !app_assoc, skipn_skipn. cbn [app].
        repeat (f_equal; try lia).
    + replace (length r <? S (S k)) with true by lia. reflexivity.
Qed.

Definition int_content (v : N) : list N :=
  let k := top_byte v 7 in (if N.testbit (v / 256 ^ N.of_nat k) 7 then [0%N] else []) ++ down v k.

Lemma int_content_der : forall v, (v < 2 ^ 64)%N -> der_integer v (int_content v) /\ 1 <= length (int_content v) <= 9.
Proof.
  intros v L. destruct (top_byte_spec 7 v L) as (A & B & C). unfold int_content. set (k := top_byte v 7) in *. clearbody k.
  assert (D: byte_ok (v / 256 ^ N.of_nat k)).
  { unfold byte_ok. apply N.div_lt_upper_bound; [pose proof (pow_pos k); lia|]. rewrite pow_S in B. lia. }
  rewrite testbit7 by auto. pose proof (down_value v k) as V. rewrite N.mod_small in V by auto.
  pose proof (down_ok v k) as O. pose proof (down_length v k) as DL.
  assert (H0: exists t, down v k = (v / 256 ^ N.of_nat k)%N :: t /\ (k = 0 -> t = [])).
  { destruct k; cbn [down]; rewrite N.mod_small by exact D; eexists; split; eauto. discriminate. }
  destruct H0 as (t & E & T). destruct (128 <=? _)%N eqn:F; cbn [app].
  - split; [|cbn [length]; lia]. split; [constructor; auto; unfold byte_ok; lia|]. split; [now rewrite be_value_cons, N.mul_0_l|].
    exists 0%N, (down v k). split; auto. split; [lia|]. intros _. rewrite E. lia.
  - split; [|lia]. split; auto. split; auto. exists (v / 256 ^ N.of_nat k)%N, t. split; auto. split; [lia|]. intros Z.
    destruct C as [C|C]; [rewrite (T C); auto|]. rewrite N.mod_small in C by exact D. lia.
Qed.

Lemma encode_integer_spec : forall v buf, (v < 2 ^ 64)%N ->
  let e := tlv 2 (int_content v) in
  encode_integer v buf = if length buf <? length e then Err else Ret (e ++ skipn (length e) buf, length e).
Proof.
  intros v buf L e. destruct (int_content_der v L) as (_ & Lc). unfold encode_integer, e. rewrite length_tlv.
  replace (length (int_content v) <? 128) with true by lia.
  destruct (length buf <? 3) eqn:E. { replace (length buf <? _) with true by lia. reflexivity. }
  unfold tlv, len_octets. replace (length (int_content v) <? 128) with true by lia.
  unfold int_content in *. rewrite pow8. set (k := top_byte v 7) in *. clearbody k.
  destruct buf as [|a [|b r]]; try discriminate.
  pose proof (down_length v k) as DL.
  destruct (N.testbit (v / 256 ^ N.of_nat k) 7) eqn:T.
  - pose proof (wr_end [a; b] r [0%N]) as W. cbn [length app] in W, E |- *. rewrite W by lia. clear W. cbn [bind].
    pose proof (put_bytes_spec v k [a; b; 0%N] (skipn 1 r) 1 eq_refl) as P. rewrite skipn_length in P. cbn [app] in P. rewrite P. clear P.
    rewrite DL. destruct (length r - 1 <? S k) eqn:F. { replace (_ <? _) with true by lia. reflexivity. }
    replace (_ <? _) with false by lia. cbn [bind].
    pose proof (wr_mid [] [a] (b :: 0%N :: down v k ++ skipn (S k) (skipn 1 r)) [2%N] eq_refl) as W. cbn [length app] in W. rewrite W. clear W. cbn [bind].
    pose proof (wr_mid [2%N] [b] (0%N :: down v k ++ skipn (S k) (skipn 1 r)) [N.of_nat (1 + S k)] eq_refl) as W. cbn [length app] in W. rewrite W. clear W. cbn [bind].
    rewrite skipn_skipn. cbn [app skipn Nat.add]. rewrite ?DL. repeat (f_equal; try lia).
  - cbn [bind app] in *. pose proof (put_bytes_spec v k [a; b] r 0 eq_refl) as P. cbn [app] in P. rewrite P. clear P.
    rewrite DL. cbn [length] in *. destruct (length r <? S k) eqn:F. { replace (_ <? _) with true by lia. reflexivity. }
    replace (_ <? _) with false by lia. cbn [bind].
    pose proof (wr_mid [] [a] (b :: down v k ++ skipn (S k) r) [2%N] eq_refl) as W. cbn [length app] in W. rewrite W. clear W. cbn [bind].
    pose proof (wr_mid [2%N] [b] (down v k ++ skipn (S k) r) [N.of_nat (0 + S k)] eq_refl) as W. cbn [length app] in W. rewrite W. clear W. cbn [bind].
    cbn [app skipn Nat.add]. rewrite ?DL. repeat (f_equal; try lia).
Qed.

Lemma der_integer_unique : forall v c1 c2, der_integer v c1 -> der_integer v c2 -> c1 = c2.
Proof.
  assert (G: forall v c1 c2, der_integer v c1 -> der_integer v c2 -> length c1 <= length c2).
  { intros v c1 c2 (B1 & V1 & b1 & t1 & -> & X1 & M1) (B2 & V2 & b2 & t2 & -> & X2 & M2).
    destruct (le_lt_dec (length (b1 :: t1)) (length (b2 :: t2))) as [|L]; auto. exfalso. cbn [length] in L.
    rewrite be_value_cons in V1, V2. inversion_clear B1 as [|? ? Bb1 Bt1]. inversion_clear B2 as [|? ? Bb2 Bt2].
    pose proof (be_value_bound _ Bt1) as U1. pose proof (be_value_bound _ Bt2) as U2.
    assert (P: (v < 128 * 256 ^ N.of_nat (length t2))%N) by nia.
    assert (Q: (256 ^ N.of_nat (S (length t2)) <= 256 ^ N.of_nat (length t1))%N) by (apply N.pow_le_mono_r; lia).
    rewrite pow_S in Q. destruct (N.eq_dec b1 0) as [->|Z].
    - specialize (M1 eq_refl). destruct t1 as [|x t1]; [cbn in L; lia|]. rewrite be_value_cons in V1. cbn [length] in *.
      assert (Q': (256 ^ N.of_nat (length t2) <= 256 ^ N.of_nat (length t1))%N) by (apply N.pow_le_mono_r; lia).
      clear - P V1 M1 Q'. nia.
    - clear - P V1 Z Q. nia. }
  intros v c1 c2 H1 H2. pose proof (G _ _ _ H1 H2). pose proof (G _ _ _ H2 H1).
  destruct H1 as (B1 & V1 & _). destruct H2 as (B2 & V2 & _). apply be_value_inj; auto; [lia|congruence].
Qed.

(** ** Lengths *)
Section Decode.
Variable SIZE : N.
Hypothesis wide : (2 ^ 32 <= SIZE)%N.

Lemma of_int_small : forall v, (v < 2 ^ 31)%N -> of_int SIZE v = v.
Proof. clear. intros. unfold of_int. now replace (v <? 2 ^ 31)%N with true by lia. Qed.

Lemma of_int_big : forall v, (2 ^ 31 <= v < 2 ^ 32)%N -> (SIZE - 2 ^ 31 <= of_int SIZE v < SIZE)%N.
Proof. intros. unfold of_int. replace (v <? 2 ^ 31)%N with false by lia. lia. Qed.

Ltac eat := unfold rd; cbn [nth_error bind].

Lemma header_run : forall t f n body, length_field n f -> length f <= 5 ->
  header SIZE (t :: f ++ body) = Ret (of_int SIZE n, S (length f)).
Proof.
  clear. intros t f n body LF L5. destruct LF as [(B & ->)|(bs & L & O & V & ->)].
  - unfold header. cbn [length app Nat.ltb Nat.leb]. eat.
    replace (n =? 0x81)%N with false by lia. replace (n =? 0x82)%N with false by lia. replace (n =? 0x83)%N with false by lia.
    replace (n =? 0x84)%N with false by lia. replace (n <? 0x80)%N with true by lia. now rewrite of_int_small by lia.
  - assert (B: forall x, In x bs -> (x < 256)%N) by (intros x I; eapply Forall_forall in O; eauto; exact O).
    destruct bs as [|a [|b [|c [|d [|]]]]]; cbn [length] in L, L5; try lia; unfold be_value in V; cbn [fold_left] in V; subst n;
      unfold header; cbn [length app Nat.ltb Nat.leb]; eat.
    + change (128 + N.of_nat 1)%N with 0x81%N. pose proof (B a ltac:(cbn; auto)). rewrite of_int_small by lia. reflexivity.
    + change (128 + N.of_nat 2)%N with 0x82%N. cbn [N.eqb Pos.eqb]. pose proof (B a ltac:(cbn; auto)). pose proof (B b ltac:(cbn; auto)).
      rewrite of_int_small by lia. do 2 f_equal; lia.
    + change (128 + N.of_nat 3)%N with 0x83%N. cbn [N.eqb Pos.eqb].
      pose proof (B a ltac:(cbn; auto)). pose proof (B b ltac:(cbn; auto)). pose proof (B c ltac:(cbn; auto)).
      rewrite of_int_small by lia. do 2 f_equal; lia.
    + change (128 + N.of_nat 4)%N with 0x84%N. cbn [N.eqb Pos.eqb]. do 3 f_equal; lia.
Qed.

Lemma length_field_bound : forall n f, length_field n f -> length f <= 5 -> (n < 2 ^ 32)%N.
Proof.
  clear. intros n f [(B & _)|(bs & L & O & <- & ->)] L5; [lia|]. pose proof (be_value_bound _ O) as U. cbn [length] in L5.
  assert (256 ^ N.of_nat (length bs) <= 256 ^ 4)%N by (apply N.pow_le_mono_r; lia). change (256 ^ 4)%N with (2 ^ 32)%N in *. lia.
Qed.

Lemma header_spec : forall der, bytes_ok der ->
  header SIZE der = Err \/
  exists t f n body, der = t :: f ++ body /\ length_field n f /\ length f <= 5 /\ header SIZE der = Ret (of_int SIZE n, S (length f)).
Proof.
  clear. intros der O.
  assert (G: header SIZE der = Err \/ exists t f n body, der = t :: f ++ body /\ length_field n f /\ length f <= 5).
  2: { destruct G as [G|(t & f & n & body & -> & F & L)]; auto. right. exists t, f, n, body. auto using header_run. }
  unfold bytes_ok in O. destruct der as [|t [|p der]]; auto.
  assert (B: forall x, In x der -> (x < 256)%N) by (intros x I; eapply Forall_forall in O; [exact O|cbn; auto]).
  remember (header SIZE (t :: p :: der)) as x eqn:X. unfold header in X. cbn [length Nat.ltb Nat.leb] in X. unfold rd in X. cbn [nth_error bind] in X.
  assert (LF: forall k bs body, der = bs ++ body -> length bs = k -> 1 <= k <= 4 -> p = (128 + N.of_nat k)%N ->
            exists t0 f n body0, t :: p :: der = t0 :: f ++ body0 /\ length_field n f /\ length f <= 5).
  { intros k bs body -> <- K ->. exists t, ((128 + N.of_nat (length bs))%N :: bs), (be_value bs), body. split; [reflexivity|]. split.
    - right. exists bs. split; [lia|]. split; auto. apply Forall_forall. intros y I. apply B. apply in_or_app; auto.
    - cbn [length]. lia. }
  destruct (p =? 0x81)%N eqn:P1.
  { destruct der as [|a r]; auto. right. apply (LF 1 [a] r); auto; lia. }
  destruct (p =? 0x82)%N eqn:P2.
  { destruct der as [|a [|b r]]; auto. right. apply (LF 2 [a; b] r); auto; lia. }
  destruct (p =? 0x83)%N eqn:P3.
  { destruct der as [|a [|b [|c r]]]; auto. right. apply (LF 3 [a; b; c] r); auto; lia. }
  destruct (p =? 0x84)%N eqn:P4.
  { destruct der as [|a [|b [|c [|d r]]]]; auto. right. apply (LF 4 [a; b; c; d] r); auto; lia. }
  destruct (p <? 0x80)%N eqn:P5; auto. right. exists t, [p], p, der. split; auto. split; [left; split; auto; lia|cbn; lia].
Qed.

(** ** Items *)
Lemma get_item_spec : forall tag der, bytes_ok der ->
  get_item SIZE tag der = Err \/
  exists f n body, der = tag :: f ++ body /\ length_field n f /\ length f <= 5 /\
    ((N.of_nat (S (length f)) + of_int SIZE n) mod SIZE <= N.of_nat (length der))%N /\ get_item SIZE tag der = Ret (body, of_int SIZE n).
Proof.
  clear. intros tag der O. unfold get_item. destruct (header_spec der O) as [->|(t & f & n & body & E & F & L & H)]; auto. rewrite H. cbn [bind].
  subst der. eat. destruct (t =? tag)%N eqn:T; cbn [negb]; auto. apply N.eqb_eq in T. subst t.
  destruct (_ <? _)%N eqn:G; auto. right. exists f, n, body. split; auto. split; auto. split; auto. split; [lia|].
  change (tag :: f ++ body) with ((tag :: f) ++ body). rewrite skip_app by reflexivity. reflexivity.
Qed.

Lemma get_item_run : forall tag f c rest, length_field (N.of_nat (length c)) f -> length f <= 5 -> (N.of_nat (length c) < 2 ^ 31)%N ->
  get_item SIZE tag (tag :: f ++ c ++ rest) = Ret (c ++ rest, N.of_nat (length c)).
Proof.
  intros tag f c rest F L B. unfold get_item. rewrite (header_run tag f _ (c ++ rest) F L). cbn [bind]. eat. rewrite N.eqb_refl. cbn [negb].
  rewrite of_int_small by auto. rewrite N.mod_small by lia. cbn [length]. rewrite !app_length.
  replace (_ <? _)%N with false by lia.
  change (tag :: f ++ c ++ rest) with ((tag :: f) ++ c ++ rest). rewrite skip_app by reflexivity. reflexivity.
Qed.

(** The length of the contents either fits, or has wrapped. *)
Lemma get_item_fits : forall tag der body n, bytes_ok der -> (N.of_nat (length der) < SIZE / 2)%N -> get_item SIZE tag der = Ret (body, n) ->
  exists f, der = tag :: f ++ body /\ length f <= 5 /\
  ((length_field n f /\ (n <= N.of_nat (length body))%N) \/ (SIZE - 6 <= n < SIZE)%N /\ length_field (2 ^ 32 - (SIZE - n)) f).
Proof.
  intros tag der body n O S2 E. destruct (get_item_spec tag der O) as [X|(f & m & body' & D & F & L & G & X)]; [congruence|].
  rewrite E in X. inversion X; subst body' n. clear X E. exists f. split; auto. split; auto.
  pose proof (length_field_bound m f F L) as Bm. assert (Lder: length der = S (length f) + length body) by (rewrite D; cbn [length]; rewrite app_length; lia).
  pose proof (N.mul_div_le SIZE 2 ltac:(lia)).
  destruct (N.lt_ge_cases m (2 ^ 31)) as [B|B].
  - left. rewrite of_int_small in * by auto. split; auto. rewrite N.mod_small in G by lia. lia.
  - right. pose proof (of_int_big m ltac:(lia)) as Z. set (o := of_int SIZE m) in *.
    assert (OS: (o = m + (SIZE - 2 ^ 32))%N) by (unfold o, of_int; replace (m <? 2 ^ 31)%N with false by lia; reflexivity).
    clearbody o. destruct (N.lt_ge_cases (N.of_nat (S (length f)) + o) SIZE) as [W|W].
    + rewrite N.mod_small in G by auto. lia.
    + split; [lia|]. replace (2 ^ 32 - (SIZE - o))%N with m by lia. exact F.
Qed.

(** ** Integers *)
Lemma get_bytes_spec : forall n l i acc, i + n <= length l -> (acc < 2 ^ 64)%N ->
  get_bytes n l i acc = Ret ((acc * 256 ^ N.of_nat n + be_value (firstn n (skipn i l))) mod 2 ^ 64)%N.
Proof.
  clear. induction n as [|n IH]; intros l i acc L A; cbn [get_bytes].
  - cbn [firstn N.of_nat]. change (256 ^ 0)%N with 1%N. unfold be_value; cbn [fold_left]. rewrite N.mul_1_r, N.add_0_r, N.mod_small by auto. reflexivity.
  - rewrite (rd_ok _ _ 0%N) by lia. cbn [bind]. rewrite IH by (try lia; apply N.mod_lt; discriminate). f_equal.
    rewrite (skipn_nth_cons l i) by lia. cbn [firstn]. rewrite be_value_cons. rewrite firstn_length, skipn_length.
    replace (min n (length l - S i)) with n by lia. rewrite pow_S.
    set (B := be_value _). set (p := (256 ^ N.of_nat n)%N). set (x := nth i l 0%N). clearbody B p x.
    rewrite <- N.add_mod_idemp_l by discriminate. rewrite N.mul_mod_idemp_l by discriminate.
    rewrite N.add_mod_idemp_l by discriminate. f_equal. lia.
Qed.

Lemma be_value_le : forall c, bytes_ok c -> length c <= 9 -> (length c = 9 -> nth 0 c 0%N = 0%N) -> (be_value c < 2 ^ 64)%N.
Proof.
  clear. intros c O L Z. pose proof (be_value_bound c O) as U. destruct (Nat.eq_dec (length c) 9) as [E|E].
  - destruct c as [|x c]; [discriminate|]. cbn [nth] in Z. rewrite (Z E). rewrite be_value_cons. inversion_clear O as [|? ? _ Oc].
    pose proof (be_value_bound c Oc) as U'. cbn [length] in E. replace (length c) with 8 in * by lia. change (256 ^ N.of_nat 8)%N with (2 ^ 64)%N in *. lia.
  - assert (256 ^ N.of_nat (length c) <= 256 ^ 8)%N by (apply N.pow_le_mono_r; lia). change (256 ^ 8)%N with (2 ^ 64)%N in *. lia.
Qed.

Lemma decode_integer_spec : forall der, bytes_ok der -> (N.of_nat (length der) < SIZE / 2)%N ->
  decode_integer SIZE der = Err \/
  (decode_integer SIZE der = Over /\ exists f, der = 2%N :: f /\ 1 <= length f <= 5 /\ (length_field 0 f \/ exists n, length_field n f /\ (2 ^ 32 - 6 <= n)%N)) \/
  exists f c rest, der = 2%N :: f ++ c ++ rest /\ length_field (N.of_nat (length c)) f /\ length f <= 5 /\ length c <= 9 /\
    (be_value c < 2 ^ 64)%N /\ (nth 0 c 0 < 128)%N /\ decode_integer SIZE der = Ret (be_value c).
Proof.
  intros der O S2. unfold decode_integer. destruct (get_item SIZE 2 der) as [[body n]| |] eqn:G; auto.
  2: { exfalso. destruct (get_item_spec 2 der O) as [E|(? & ? & ? & _ & _ & _ & _ & E)]; congruence. }
  cbn [bind]. destruct (get_item_fits 2 der body n O S2 G) as (f & D & L5 & H).
  assert (L1: 1 <= length f).
  { destruct H as [([(_ & ->)|(bs & _ & _ & _ & ->)] & _)|(_ & [(_ & ->)|(bs & _ & _ & _ & ->)])]; cbn [length]; lia. }
  assert (Ob: bytes_ok body). { subst der. inversion_clear O as [|? ? _ O']. apply Forall_app in O'. tauto. }
  destruct body as [|x body].
  { right. left. split; [reflexivity|]. exists f. rewrite app_nil_r in D. split; auto. split; [lia|].
    destruct H as [(H & Hn)|(Hn & H)]; [left|right]; [cbn in Hn; replace 0%N with n by lia; auto|].
    exists (2 ^ 32 - (SIZE - n))%N. split; auto. lia. }
  eat. inversion Ob as [|? ? Ox Ob']; subst. rewrite testbit7 by auto.
  destruct (128 <=? x)%N eqn:X; auto.
  destruct ((9 <? n)%N || ((n =? 9)%N && negb (x =? 0)%N)) eqn:C; auto.
  right. right. destruct H as [(H & Hn)|(Hn & _)]; [|lia].
  cbn [length] in Hn. rewrite get_bytes_spec by (cbn [length]; lia). cbn [skipn]. rewrite N.mul_0_l, N.add_0_l.
  exists f, (firstn (N.to_nat n) (x :: body)), (skipn (N.to_nat n) (x :: body)). rewrite firstn_skipn. split; auto.
  assert (Lc: length (firstn (N.to_nat n) (x :: body)) = N.to_nat n) by (rewrite firstn_length; cbn [length]; lia).
  rewrite Lc, N2Nat.id. split; auto. split; auto. split; [lia|].
  assert (V: (be_value (firstn (N.to_nat n) (x :: body)) < 2 ^ 64)%N).
  { apply be_value_le; [now apply Forall_firstn|lia|]. intros E9. rewrite Lc in E9. assert (x = 0%N) by lia.
    destruct (N.to_nat n); [discriminate|]. cbn [firstn nth]. auto. }
  split; auto. split; [destruct (N.to_nat n); cbn [firstn nth]; lia|]. now rewrite N.mod_small.
Qed.

Lemma decode_integer_run : forall f c rest, length_field (N.of_nat (length c)) f -> length f <= 5 -> bytes_ok c -> 1 <= length c <= 9 ->
  (nth 0 c 0 < 128)%N -> (length c = 9 -> nth 0 c 0%N = 0%N) -> decode_integer SIZE (2%N :: f ++ c ++ rest) = Ret (be_value c).
Proof.
  intros f c rest F L5 O Lc X Z. unfold decode_integer. rewrite get_item_run by (auto; lia). cbn [bind].
  destruct c as [|x c]; [cbn in Lc; lia|]. eat. cbn [app nth_error bind nth] in *. rewrite testbit7 by (inversion O; auto).
  replace (128 <=? x)%N with false by lia. replace (_ || _) with false by lia.
  rewrite Nat2N.id. change (x :: c ++ rest) with ((x :: c) ++ rest).
  rewrite get_bytes_spec by (rewrite ?app_length; lia). cbn [skipn]. rewrite firstn_app, Nat.sub_diag, firstn_all, firstn_O, app_nil_r.
  rewrite N.mul_0_l, N.add_0_l, N.mod_small; auto. now apply be_value_le.
Qed.
End Decode.
