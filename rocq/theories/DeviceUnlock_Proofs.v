(** Tokens, and histories of requests. *)
From Coq Require Import List NArith Lia Bool Arith ZifyBool ZifyNat ZifyN.
From Verif Require Import Base ByteMath_Model ByteMath_Spec ByteMath_Proofs Der_Model Der_Proofs Auth_Model Auth_Proofs KeyWrap_Proofs.
From Verif Require Import DeviceUnlock_Model DeviceUnlock_Spec DeviceUnlock_Parse_Proofs.
Import ListNotations.

(** ** The counter *)
Lemma next_odd : forall fuel l l', set_contiguous_loop fuel l 0 = Some (l', CM_OK) -> bytes_ok l ->
  next_unlocked l l' /\ bytes_ok l'.
Proof.
  induction fuel as [|fuel IH]; intros l l' H B; cbn [set_contiguous_loop] in H; [discriminate|]. cbv zeta in H.
  set (k := get_num_contiguous_bits_set_in_array l) in *. destruct (contiguous_array l) as (L & T & F). fold k in L, T, F.
  destruct (Nat.eqb_spec (k mod 2) 0) as [E|E].
  - destruct (Nat.lt_ge_cases k (8 * length l)) as [C|C].
    + destruct (set_bit_correct l k C) as (l1 & E1 & L1 & B1). rewrite E1 in H.
      assert (BO: bytes_ok l1). { pose proof (set_bit_bytes_ok l k B) as Q. rewrite E1 in Q. exact Q. }
      pose proof (contiguous_after_set l l1 L1 C B1) as INC. fold k in INC.
      destruct (IH l1 l' H BO) as ((LL & q & Q1 & Q2 & Q3 & Q4) & BL). split; [|exact BL]. split; [lia|].
      assert (KQ: k < q).
      { destruct (Nat.lt_ge_cases k q) as [G|G]; [exact G|]. exfalso. destruct Q2 as (R1 & R2 & R3).
        assert (X: arr_bit l' q = false) by (apply R3; lia). rewrite Q3 in X. apply orb_false_iff in X. destruct X as [X _].
        rewrite B1 in X. destruct (Nat.eqb_spec q k) as [->|NE]; [discriminate|]. rewrite T in X by lia. discriminate. }
      exists q. split; [exact Q1|]. split; [exact Q2|]. split.
      * intros i. rewrite Q3, B1. destruct (Nat.eqb_spec i k) as [->|NE]; [|reflexivity]. cbn [orb]. replace (k <? q) with true by lia. now rewrite orb_true_r.
      * intros j J O. pose proof (Q4 j J O) as Q5. rewrite B1 in Q5. destruct (Nat.eqb_spec j k) as [JK|NE]; [|exact Q5].
        exfalso. rewrite JK in O. rewrite <- Nat.negb_even in O. assert (Nat.even k = true); [|rewrite H0 in O; discriminate]. apply Nat.even_spec. exists (k / 2).
        pose proof (Nat.div_mod k 2 ltac:(discriminate)). lia.
    + rewrite set_bit_out in H by lia. discriminate.
  - injection H as <-. split; [|exact B]. split; [reflexivity|]. exists k. split; [|split; [exact (conj L (conj T F))|]].
    + apply Nat.odd_spec. exists (k / 2). pose proof (Nat.div_mod k 2 ltac:(discriminate)). pose proof (Nat.mod_upper_bound k 2 ltac:(discriminate)). lia.
    + split; [|intros j J _; apply T; exact J].
      intros i. destruct (Nat.ltb_spec i k) as [G|G]; [rewrite T by auto; reflexivity|now rewrite orb_false_r].
Qed.

(** ** The context of a token *)
Definition ctx (oid u c : list N) : list N :=
  6%N :: N.of_nat (length oid) :: oid ++ [1%N; 0%N] ++ uuid_field u ++ [(N.of_nat (length c) mod 256)%N] ++ c.

Lemma length_uuid : forall u, length (uuid_field u) = 16.
Proof. intros. unfold uuid_field. rewrite firstn_length, app_length, repeat_length. lia. Qed.

Lemma length_ctx : forall oid u c, length (ctx oid u c) = 2 + length oid + 2 + 16 + 1 + length c.
Proof. intros. unfold ctx. cbn [length]. rewrite !app_length, length_uuid. cbn [length]. lia. Qed.

Lemma uuid_pad : forall u, uuid_field u = firstn 16 u ++ repeat 0%N (16 - length u).
Proof.
  intros. unfold uuid_field. rewrite firstn_app. f_equal.
  assert (forall a b, b <= a -> firstn b (repeat 0%N a) = repeat 0%N b) as Q.
  { induction a; intros [|b] H; auto; [lia|]. cbn [repeat firstn]. f_equal. apply IHa. lia. }
  apply Q. lia.
Qed.

Lemma context_spec : forall d c buf u, data_length d <= length buf -> length c = d_counter_len d -> d_oid d <> [] ->
  context d c buf u =
  match u with
  | Some u => if 127 <? length (d_oid d) then Err else Ret (ctx (d_oid d) u c ++ skipn (data_length d) buf)
  | None => Err
  end.
Proof.
  intros d c buf u LB LC NE. unfold context, encode_oid.
  assert (LO: 0 < length (d_oid d)) by (destruct (d_oid d); [congruence|cbn [length]; lia]).
  replace (length (d_oid d) =? 0) with false by lia. replace (data_length d <? 2 + length (d_oid d)) with false by (unfold data_length; lia).
  rewrite orb_false_r. cbn [orb]. destruct (127 <? length (d_oid d)) eqn:O; [destruct u; reflexivity|]. unfold data_length, UUID_LEN in *.
  set (oid := d_oid d) in *.
  pose proof (wr_end' [] buf [6%N; N.of_nat (length oid)] 0 eq_refl) as W. cbn [app length] in W. rewrite W by lia. clear W. cbn [bind].
  change (6%N :: N.of_nat (length oid) :: skipn 2 buf) with ([6%N; N.of_nat (length oid)] ++ skipn 2 buf).
  rewrite (wr_end' [6%N; N.of_nat (length oid)]) by (cbn [length]; rewrite ?skipn_length; lia). cbn [bind].
  rewrite skipn_skipn. rewrite wr_end' by (rewrite ?skipn_length, ?app_length; cbn [length le16]; lia). cbn [bind]. rewrite skipn_skipn.
  rewrite wr_end' by (rewrite ?skipn_length, ?app_length, ?repeat_length; cbn [length le16]; lia). cbn [bind]. rewrite skipn_skipn, repeat_length.
  destruct u as [u|]; [|reflexivity].
  set (A := ([6%N; N.of_nat (length oid)] ++ oid) ++ le16 1). set (R := skipn (2 + length oid + length (le16 1) + 16) buf).
  assert (LA: length A = 2 + length oid + 2) by (unfold A; rewrite !app_length; cbn [length le16]; lia).
  replace ((A ++ repeat 0%N 16) ++ R) with (A ++ repeat 0%N (length (firstn 16 u)) ++ repeat 0%N (16 - length u) ++ R).
  2: { rewrite <- app_assoc. f_equal. rewrite app_assoc, <- repeat_app. do 2 f_equal. rewrite firstn_length. lia. }
  rewrite <- LA. rewrite wr_mid by (rewrite repeat_length; reflexivity). cbn [bind].
  replace (A ++ firstn 16 u ++ repeat 0%N (16 - length u) ++ R) with ((A ++ uuid_field u) ++ R) by (rewrite uuid_pad, <- !app_assoc; reflexivity).
  assert (LR: length R = length buf - (2 + length oid + 2 + 16)) by (unfold R; rewrite skipn_length; cbn [length le16]; lia).
  rewrite (wr_end' (A ++ uuid_field u)) by (rewrite ?app_length, ?length_uuid; cbn [length]; lia). cbn [bind].
  rewrite rds_all by auto. cbn [bind].
  rewrite wr_end' by (rewrite ?skipn_length, ?app_length, ?length_uuid; cbn [length]; lia). cbn [bind]. f_equal.
  unfold R. rewrite !skipn_skipn. unfold ctx, A. rewrite <- LC.
  f_equal; [rewrite <- !app_assoc; reflexivity|]. f_equal. rewrite !app_length. cbn [length le16]. lia.
Qed.

(** ** Generating *)
Definition token_made (d : device) (v : env) (now : N) (t : list N) : Prop :=
  exists c u c' rnd sg, e_counter v = Some c /\ e_uuid v = Some u /\ g_rng (e_gen v) = Some rnd /\ g_sign (e_gen v) = Some sg /\
    length (firstn (d_counter_len d) c) = d_counter_len d /\ locked (firstn (d_counter_len d) c) /\
    next_unlocked (firstn (d_counter_len d) c) c' /\ length (d_oid d) <= 127 /\ data_length d <= c_data (d_auth d) /\
    t = ctx (d_oid d) u c' ++ repeat 0%N (c_data (d_auth d) - data_length d) ++
      firstn (c_nonce (d_auth d)) (rnd ++ repeat 0%N (c_nonce (d_auth d))) ++ firstn (c_sig (d_auth d)) sg.

Lemma bytes_ok_ctx : forall oid u c, bytes_ok oid -> length oid <= 127 -> bytes_ok u -> bytes_ok c -> bytes_ok (ctx oid u c).
Proof.
  intros oid u c BO L BU BC. unfold ctx. constructor; [reflexivity|]. constructor; [unfold byte_ok; lia|].
  apply Forall_app. split; [exact BO|]. constructor; [reflexivity|]. constructor; [reflexivity|].
  apply Forall_app. split; [unfold uuid_field; apply bytes_ok_firstn; apply Forall_app; split; [exact BU|apply bytes_ok_zeros]|].
  constructor; [apply N.mod_lt; discriminate|exact BC].
Qed.

Lemma get_token_spec : forall d s buf v now s' m, tok_ok (d_auth d) s -> op_ok (GetToken buf v) -> bytes_ok (d_oid d) -> d_oid d <> [] ->
  get_unlock_token d s buf v now = (s', m) ->
  match m with
  | OutOfBounds => False
  | Refused => s' = s
  | MakeFailed => tok_ok (d_auth d) s' /\ k_len s' = 0
  | Issued t => tok_ok (d_auth d) s' /\ k_len s' = length t /\ t = firstn (k_len s') (k_buf s') /\
      (c_validity (d_auth d) <> 0%N -> k_exp s' = (now + c_validity (d_auth d))%N) /\ token_made d v now t /\ length t <= length buf
  | Withheld t => tok_ok (d_auth d) s' /\ k_len s' = length t /\ t = firstn (k_len s') (k_buf s') /\
      (c_validity (d_auth d) <> 0%N -> k_exp s' = (now + c_validity (d_auth d))%N) /\ token_made d v now t /\ length buf < length t
  end.
Proof.
  intros d s buf v now s' m T (BB & BC & BU & BR & BS) BO NE H. unfold get_unlock_token in H.
  destruct (e_alloc v); cbn [negb] in H; [|injection H as <- <-; reflexivity].
  destruct (e_counter v) as [c|] eqn:EC; [|injection H as <- <-; reflexivity]. cbv zeta in H. cbn [bytes_opt] in BC.
  set (cc := firstn (d_counter_len d) c) in *. assert (BCC: bytes_ok cc) by (apply bytes_ok_firstn; exact BC).
  destruct (Nat.odd (get_num_contiguous_bits_set_in_array cc)) eqn:OD; [injection H as <- <-; reflexivity|].
  destruct (set_next_bit_odd_count cc) as [[c' st]|] eqn:SN; [|injection H as <- <-; reflexivity].
  destruct st; try (injection H as <- <-; reflexivity). unfold set_next_bit_odd_count, set_contiguous_bits_to_count in SN.
  destruct (next_odd _ _ _ SN BCC) as [NU BC']. unfold generate in H.
  destruct (Nat.eqb_spec (length c') (d_counter_len d)) as [LC|LC]; cbn [negb] in H; [|injection H as <- <-; reflexivity].
  destruct (Nat.ltb_spec (length buf) (data_length d)) as [LB|LB]; [injection H as <- <-; reflexivity|].
  rewrite context_spec in H by auto. destruct (e_uuid v) as [u|] eqn:EU; [|injection H as <- <-; reflexivity]. cbn [bytes_opt] in BU.
  destruct (Nat.ltb_spec 127 (length (d_oid d))) as [LO|LO]; [injection H as <- <-; reflexivity|].
  assert (LX: length (ctx (d_oid d) u c') = data_length d) by (rewrite length_ctx; unfold data_length, UUID_LEN; lia).
  rewrite firstn_app, LX, Nat.sub_diag, firstn_O, app_nil_r in H. rewrite <- LX in H at 1. rewrite firstn_all in H.
  assert (BX: bytes_ok (ctx (d_oid d) u c')) by (apply bytes_ok_ctx; auto; lia).
  destruct (new_token (d_auth d) s (ctx (d_oid d) u c') (e_gen v) now) as [s1 r] eqn:NT.
  pose proof (new_token_spec _ _ _ _ _ _ _ T BX BR BS NT) as Q. destruct r as [| |t].
  - injection H as <- <-. exact (proj1 Q).
  - injection H as <- <-. exact Q.
  - destruct Q as (Q1 & Q2 & Q3 & Q4 & Q5 & rnd & sg & Q6 & Q7 & Q8).
    assert (TM: token_made d v now t).
    { exists c, u, c', rnd, sg. rewrite EC, EU. rewrite <- LX. destruct NU as [NL NK]. fold cc. rewrite Q2 || idtac.
      split; [auto|]. split; [auto|]. split; [auto|]. split; [auto|]. split; [lia|].
      split; [exists (get_num_contiguous_bits_set_in_array cc); split; [rewrite <- Nat.negb_odd, OD; reflexivity|apply contiguous_array]|].
      split; [exact (conj NL NK)|]. split; [lia|]. split; [exact Q2|exact Q8]. }
    assert (LBB: length (ctx (d_oid d) u c' ++ skipn (data_length d) buf) = length buf).
    { rewrite app_length, LX, skipn_length. lia. }
    rewrite LBB in H.
    destruct (Nat.ltb_spec (length buf) (length t)) as [LL|LL]; injection H as <- <-;
      (split; [exact Q1|]; split; [exact Q3|]; split; [exact Q4|]; split; [exact Q5|]; split; [exact TM|exact LL]).
Qed.

(** ** Histories *)
Section Histories.
Variable sig_ok : list N -> list N -> bool.
Variable d : device.
Hypothesis oid_bytes : bytes_ok (d_oid d).
Hypothesis oid_some : d_oid d <> [].
Hypothesis nonce_pos : 0 < c_nonce (d_auth d).
Notation run := (run sig_ok d).
Notation step := (step sig_ok d).
Notation c := (d_auth d).

Lemma active_snoc : forall es e, active (es ++ [e]) = observe (active es) e.
Proof. intros. unfold active. now rewrite fold_left_app. Qed.

Lemma made_long : forall v now t, token_made d v now t -> c_data c + c_nonce c <= length t.
Proof.
  intros v now t (k & u & c' & rnd & sg & _ & _ & _ & _ & L & _ & (NL & _) & LO & LD & ->). rewrite !app_length, length_ctx, repeat_length.
  assert (length (firstn (c_nonce c) (rnd ++ repeat 0%N (c_nonce c))) = c_nonce c) by (rewrite firstn_length, app_length, repeat_length; lia).
  unfold data_length, UUID_LEN in *. lia.
Qed.

Lemma apply_spec : forall s data v ok now s' a p, tok_ok c s -> holds c s p -> bytes_ok data -> apply_policy sig_ok d s data v ok now = (s', a) ->
  (a = Rejected /\ s' = s) \/
  (exists pc t t0, ((a = Unlocked /\ s' = invalidate s) \/ (a = UnlockFailed /\ s' = s)) /\ parse_container data = Ret pc /\ p = Some (t, t0) /\
    2 + length t + (2 + p_policy_len pc) < length data /\ window 2 (length t) data = t /\
    sig_ok (firstn (2 + length t + (2 + p_policy_len pc)) data) (skipn (2 + length t + (2 + p_policy_len pc)) data) = true /\
    (c_validity c = 0%N \/ (now < t0 + c_validity c)%N)).
Proof.
  intros s data v ok now s' a p T HO B H. unfold apply_policy, authenticate in H.
  destruct (parse_container data) as [pc| |] eqn:PC; [|injection H as <- <-; auto|injection H as <- <-; auto].
  destruct (verify_data sig_ok c s data 2 (2 + p_policy_len pc) v now) eqn:V; [|injection H as <- <-; auto|injection H as <- <-; auto].
  apply (verify_valid sig_ok) in V; auto; [|eapply holds_small; eauto].
  destruct V as (V1 & V2 & V3 & V4 & V5 & _). destruct p as [[t t0]|]; cbn [holds] in HO; [|contradiction].
  destruct HO as (P1 & P2 & P3 & P4). right. exists pc, t, t0. rewrite <- P1.
  split; [destruct ok; injection H as <- <-; auto|]. split; [reflexivity|]. split; [reflexivity|]. split; [exact V2|].
  split; [rewrite V3; auto|]. split; [exact V4|]. destruct V5 as [V5|[V5 _]]; [auto|].
  destruct (N.eq_dec (c_validity c) 0); [auto|]. right. rewrite <- P4; auto.
Qed.

Lemma step_holds : forall s now o s' now' es0 es, tok_ok c s -> holds c s (active es0) -> op_ok o -> step s now o = (s', now', es) ->
  tok_ok c s' /\ holds c s' (active (es0 ++ es)).
Proof.
  intros s now o s' now' es0 es T HO OK H. destruct o as [buf v|data v ok| |ms]; cbn [DeviceUnlock_Model.step] in H.
  - destruct (get_unlock_token d s buf v now) as [s1 m] eqn:G. injection H as <- <- <-. rewrite active_snoc.
    pose proof (get_token_spec _ _ _ _ _ _ _ T OK oid_bytes oid_some G) as Q. destruct m as [t| | |t|]; cbn [observe].
    + destruct Q as (Q1 & Q2 & Q3 & Q4 & Q5 & _). split; [exact Q1|]. pose proof (made_long _ _ _ Q5). cbn [holds]. auto.
    + subst s1. auto.
    + destruct Q. auto.
    + destruct Q as (Q1 & Q2 & Q3 & Q4 & Q5 & _). split; [exact Q1|]. pose proof (made_long _ _ _ Q5). cbn [holds]. auto.
    + contradiction.
  - destruct (apply_policy sig_ok d s data v ok now) as [s1 a] eqn:A. injection H as <- <- <-. rewrite active_snoc.
    destruct (apply_spec _ _ _ _ _ _ _ _ T HO OK A) as [(-> & ->)|(pc & t & t0 & [(-> & ->)|(-> & ->)] & _)]; cbn [observe]; auto.
    split; [|reflexivity]. destruct T. constructor; auto.
  - injection H as <- <- <-. rewrite active_snoc. cbn [observe]. split; [|reflexivity]. destruct T. constructor; auto.
  - injection H as <- <- <-. rewrite app_nil_r. auto.
Qed.

Lemma run_holds : forall l s now s' now' es0 es, tok_ok c s -> holds c s (active es0) -> Forall op_ok l -> run s now l = (s', now', es) ->
  tok_ok c s' /\ holds c s' (active (es0 ++ es)).
Proof.
  induction l as [|o l IH]; intros s now s' now' es0 es T HO OK H; cbn [DeviceUnlock_Model.run] in H.
  - injection H as <- <- <-. rewrite app_nil_r. auto.
  - destruct (step s now o) as [[s1 n1] e1] eqn:S. destruct (run s1 n1 l) as [[s2 n2] e2] eqn:R. injection H as <- <- <-.
    inversion OK as [|? ? OK1 OK2]; subst. destruct (step_holds _ _ _ _ _ _ _ T HO OK1 S) as [T1 H1].
    rewrite app_assoc. exact (IH _ _ _ _ _ _ T1 H1 OK2 R).
Qed.

(** An event comes from a request made in a state that agrees with the events before it. *)
Lemma run_split : forall l s now s' now' es e1 e e2, run s now l = (s', now', es) -> es = e1 ++ e :: e2 -> Forall op_ok l ->
  exists l1 o s1 n1 s2 n2, Forall op_ok l1 /\ op_ok o /\ run s now l1 = (s1, n1, e1) /\ step s1 n1 o = (s2, n2, [e]).
Proof.
  induction l as [|o l IH]; intros s now s' now' es e1 e e2 H E OK; cbn [DeviceUnlock_Model.run] in H.
  - injection H as <- <- <-. destruct e1; discriminate.
  - destruct (step s now o) as [[s1 n1] ee] eqn:S. destruct (run s1 n1 l) as [[s2 n2] es'] eqn:R. injection H as <- <- <-.
    inversion OK as [|? ? OK1 OK2]; subst.
    assert (EE: ee = [] \/ exists x, ee = [x]).
    { destruct o; cbn [DeviceUnlock_Model.step] in S; repeat match type of S with context [let '(_, _) := ?x in _] => destruct x end; injection S as <- <- <-; eauto. }
    destruct EE as [->|[x ->]]; cbn [app] in E.
    + destruct (IH _ _ _ _ _ _ _ _ R E OK2) as (l1 & o1 & sa & na & sb & nb & A1 & A2 & A3 & A4).
      exists (o :: l1), o1, sa, na, sb, nb. split; [constructor; auto|]. split; [auto|]. split; [|auto].
      cbn [DeviceUnlock_Model.run]. rewrite S, A3. reflexivity.
    + destruct e1 as [|y e1]; cbn [app] in E; injection E as -> E.
      * exists [], o, s, now, s1, n1. auto.
      * destruct (IH _ _ _ _ _ _ _ _ R E OK2) as (l1 & o1 & sa & na & sb & nb & A1 & A2 & A3 & A4).
        exists (o :: l1), o1, sa, na, sb, nb. split; [constructor; auto|]. split; [auto|]. split; [|auto].
        cbn [DeviceUnlock_Model.run]. rewrite S, A3. reflexivity.
Qed.
End Histories.
