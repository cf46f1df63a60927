(** C87: reset counters. *)
From Coq Require Import List NArith Bool Arith Lia.
From Verif Require Import Base Counter_Model Counter_Spec.
Import ListNotations.
Local Open Scope N_scope.

Lemma high_bits : forall c n, c < 65536 -> 16 <= n -> N.testbit c n = false.
Proof. intros c n C L. rewrite <- (N.mod_small c (2 ^ 16)) by exact C. apply N.mod_pow2_bits_high. exact L. Qed.

Lemma ones_bit : forall n, N.testbit (N.ones 16) n = (n <? 16).
Proof. intros n. destruct (N.ltb_spec n 16); [now apply N.ones_spec_low | now apply N.ones_spec_high]. Qed.

Lemma HIGH_bit : forall n, N.testbit HIGH n = (16 <=? n) && (n <? 32).
Proof.
  intros n. unfold HIGH. destruct (N.leb_spec 16 n).
  - rewrite N.shiftl_spec_high' by assumption. rewrite ones_bit. cbn [andb]. destruct (N.ltb_spec (n - 16) 16), (N.ltb_spec n 32); auto; lia.
  - now rewrite N.shiftl_spec_low.
Qed.

Lemma low_of_low : forall r c, c < 65536 -> N.land (N.lor (N.land r HIGH) c) LOW = c.
Proof.
  intros r c C. apply N.bits_inj. intros n. rewrite !N.land_spec, N.lor_spec, N.land_spec, HIGH_bit. unfold LOW. rewrite ones_bit.
  destruct (N.ltb_spec n 16).
  - destruct (N.leb_spec 16 n); [lia|]. cbn [andb]. now rewrite andb_false_r, andb_true_r.
  - rewrite (high_bits c n C H). now rewrite andb_false_r.
Qed.

Lemma high_of_low : forall r c, c < 65536 -> N.land (N.shiftr (N.lor (N.land r HIGH) c) 16) LOW = N.land (N.shiftr r 16) LOW.
Proof.
  intros r c C. apply N.bits_inj. intros n. rewrite !N.land_spec, !N.shiftr_spec', N.lor_spec, N.land_spec, HIGH_bit. unfold LOW. rewrite ones_bit.
  rewrite (high_bits c (n + 16) C) by lia. rewrite orb_false_r. destruct (N.ltb_spec n 16); [|now rewrite !andb_false_r].
  destruct (N.leb_spec 16 (n + 16)), (N.ltb_spec (n + 16) 32); try lia. now rewrite !andb_true_r.
Qed.

Lemma high_of_high : forall r c, c < 65536 -> N.land (N.shiftr (N.lor (N.land r LOW) (N.shiftl c 16)) 16) LOW = c.
Proof.
  intros r c C. apply N.bits_inj. intros n. rewrite !N.land_spec, !N.shiftr_spec', N.lor_spec, N.land_spec. unfold LOW. rewrite !ones_bit.
  rewrite N.shiftl_spec_high' by lia. replace (n + 16 - 16) with n by lia.
  destruct (N.ltb_spec (n + 16) 16); [lia|]. rewrite andb_false_r. cbn [orb]. destruct (N.ltb_spec n 16); [apply andb_true_r|].
  rewrite (high_bits c n C) by assumption. reflexivity.
Qed.

Lemma low_of_high : forall r c, N.land (N.lor (N.land r LOW) (N.shiftl c 16)) LOW = N.land r LOW.
Proof.
  intros r c. apply N.bits_inj. intros n. rewrite !N.land_spec, N.lor_spec, N.land_spec. unfold LOW. rewrite !ones_bit.
  destruct (N.ltb_spec n 16); [|now rewrite !andb_false_r]. rewrite N.shiftl_spec_low by assumption. now rewrite orb_false_r, !andb_true_r.
Qed.

(** The value of a counter. *)
Definition value (s : regs) (k : counter) : N :=
  match k with
  | OfCerberus => N.land (reg1 s) LOW
  | OfComponent0 => N.land (N.shiftr (reg1 s) 16) LOW
  | OfComponent1 => match reg2 s with Some r => N.land r LOW | None => 0 end
  end.
Definition second (s : regs) : bool := match reg2 s with Some _ => true | None => false end.

Lemma get_value : forall s t p, get s t p = match names (second s) t p with Some k => Some (value s k) | None => None end.
Proof.
  intros s t p. unfold get, names, second, CERBERUS, COMPONENT.
  destruct t as [|[t|t|]]; cbn; try reflexivity. destruct p as [|[p|p|]]; destruct (reg2 s) eqn:E; cbn; try rewrite E; reflexivity.
Qed.

Lemma set_value : forall s t p c, c < 65536 ->
  match names (second s) t p with
  | Some k => fst (set s t p c) = true /\ second (snd (set s t p c)) = second s /\
              forall j, value (snd (set s t p c)) j = if same k j then c else value s j
  | None => set s t p c = (false, s)
  end.
Proof.
  intros s t p c C. unfold set, names, second, CERBERUS, COMPONENT.
  destruct t as [|[t|t|]]; cbn [N.eqb Pos.eqb]; try reflexivity.
  - split; [reflexivity|]. split; [reflexivity|]. intros []; cbn [same value snd reg1 reg2]; auto using low_of_low, high_of_low.
  - destruct p as [|[p|p|]]; destruct (reg2 s) as [r|] eqn:E; cbn [N.eqb Pos.eqb fst snd]; try reflexivity.
    + split; [reflexivity|]. split; [reflexivity|]. intros []; cbn [same value snd reg1 reg2]; rewrite ?E; auto using low_of_high, high_of_high.
    + split; [reflexivity|]. split; [reflexivity|]. intros []; cbn [same value snd reg1 reg2]; rewrite ?E; auto using low_of_high, high_of_high.
    + split; [reflexivity|]. split; [reflexivity|]. intros []; cbn [same value snd reg1 reg2]; rewrite ?E; auto using low_of_low.
Qed.

Lemma value_bound : forall s k, value s k < 65536.
Proof.
  intros s k. assert (G : forall r, N.land r LOW < 65536) by (intros r; unfold LOW; rewrite N.land_ones; apply N.mod_lt; discriminate).
  destruct k; cbn; auto. destruct (reg2 s); auto. reflexivity.
Qed.

Lemma run_value : forall l s k, second (run s l) = second s /\ value (run s l) k = tally (second s) k (value s k) l mod 65536.
Proof.
  assert (T : forall b k l v, tally b k v l mod 65536 = tally b k (v mod 65536) l mod 65536).
  { intros b k. induction l as [|[t p|t p] l IH]; intros v; cbn [tally].
    - now rewrite N.mod_mod.
    - destruct (is (names b t p) k); [reflexivity | apply IH].
    - destruct (is (names b t p) k); [|apply IH]. rewrite IH, (IH (v mod 65536 + 1)). now rewrite N.add_mod_idemp_l by discriminate. }
  induction l as [|o l IH]; intros s k; cbn [run fold_left tally].
  - split; [reflexivity|]. symmetry. apply N.mod_small, value_bound.
  - change (fold_left _ l (snd (step s o))) with (run (snd (step s o)) l). destruct (IH (snd (step s o)) k) as [I1 I2]. rewrite I1, I2.
    destruct o as [t p|t p]; cbn [step].
    + pose proof (set_value s t p 0 eq_refl) as S. destruct (names (second s) t p) as [j|] eqn:N.
      * destruct S as (_ & S2 & S3). rewrite S2, S3. split; [reflexivity|]. cbn [is]. reflexivity.
      * rewrite S. split; reflexivity.
    + rewrite get_value. destruct (names (second s) t p) as [j|] eqn:N.
      * pose proof (set_value s t p ((value s j + 1) mod 65536) ltac:(apply N.mod_lt; discriminate)) as S. rewrite N in S.
        destruct S as (_ & S2 & S3). rewrite S2, S3. split; [reflexivity|]. cbn [is]. destruct (same j k) eqn:SM; [|reflexivity].
        assert (j = k) as -> by (destruct j, k; (reflexivity || discriminate)). now rewrite <- T.
      * split; reflexivity.
Qed.

(** After any history of clears and increments, each counter reads as the number of
    its increments since it was last cleared, modulo 2^16, and no operation on one
    changes another. *)
Theorem C87_count : forall s l t p k,
  names (second s) t p = Some k ->
  exists v, get s t p = Some v /\ get (run s l) t p = Some (tally (second s) k v l mod 65536).
Proof.
  intros s l t p k N. exists (value s k). destruct (run_value l s k) as [I1 I2]. rewrite !get_value, I1, N, I2. split; reflexivity.
Qed.
Print Assumptions C87_count.

(** Operations fail exactly for counters that do not exist, and then change nothing;
    such a counter cannot be read either. *)
Theorem C87_unknown : forall s t p,
  (names (second s) t p = None -> get s t p = None /\ step s (Clear t p) = (false, s) /\ step s (Increment t p) = (false, s)) /\
  (names (second s) t p <> None -> fst (step s (Clear t p)) = true /\ fst (step s (Increment t p)) = true).
Proof.
  intros s t p. cbn [step]. rewrite get_value. pose proof (set_value s t p 0 eq_refl) as S. split; intros N.
  - rewrite N in S |- *. now repeat split.
  - destruct (names (second s) t p) as [k|] eqn:K; [|congruence].
    pose proof (set_value s t p ((value s k + 1) mod 65536) ltac:(apply N.mod_lt; discriminate)) as S'. rewrite K in S'. split; [apply S | apply S'].
Qed.
Print Assumptions C87_unknown.

(** REFUTED: that increments by several tasks are all counted.  The lock is not held
    between the read and the write: two increments can count as one. *)
Theorem C87_lost_refuted : forall s t p v, get s t p = Some v -> get (both s t p) t p = Some ((v + 1) mod 65536).
Proof.
  intros s t p v G. unfold both. rewrite G. rewrite get_value in G.
  destruct (names (second s) t p) as [k|] eqn:N; [|discriminate].
  assert (B : (v + 1) mod 65536 < 65536) by (apply N.mod_lt; discriminate).
  pose proof (set_value s t p _ B) as S. rewrite N in S. destruct S as (_ & S2 & _).
  pose proof (set_value (snd (set s t p ((v + 1) mod 65536))) t p _ B) as S'. rewrite S2, N in S'. destruct S' as (_ & S2' & S3').
  rewrite get_value, S2', N, S3'. now destruct k.
Qed.
Print Assumptions C87_lost_refuted.

(** REFUTED: that counting is always defined.  After 32767 increments of the counter of
    the first component the next one shifts into the sign bit of an int. *)
Theorem C87_shift_refuted : forall s n, N.of_nat n = 32767 -> exists v,
  get (run s (Clear 1 0 :: repeat (Increment 1 0) n)) 1 0 = Some v /\ undefined 1 0 ((v + 1) mod 65536) = true.
Proof.
  intros s n E. destruct (C87_count s (Clear 1 0 :: repeat (Increment 1 0) n) 1 0 OfComponent0 eq_refl) as (v0 & _ & H).
  exists 32767. split; [|reflexivity].
  assert (T : forall n v, tally (second s) OfComponent0 v (repeat (Increment 1 0) n) = v + N.of_nat n).
  { clear. induction n as [|n IH]; intros v; [cbn; lia|]. cbn [repeat tally names is same]. rewrite IH. lia. }
  rewrite H. cbn [tally]. change (is (names (second s) 1 0) OfComponent0) with true. cbv iota. rewrite T, E. reflexivity.
Qed.
Print Assumptions C87_shift_refuted.

(** Non-vacuity. *)
Example C87_example :
  let s := run (Regs 4294967295 (Some 5)) [Increment 0 9; Clear 1 0; Increment 1 0; Increment 1 1; Increment 1 0; Increment 1 2; Clear 7 0] in
  get s 0 0 = Some 0 /\ get s 1 0 = Some 2 /\ get s 1 1 = Some 6 /\ get s 1 2 = None /\
  get (both s 1 0) 1 0 = Some 3 /\ get (run (Regs 0 None) [Increment 1 1]) 1 1 = None.
Proof. vm_compute. repeat split. Qed.
