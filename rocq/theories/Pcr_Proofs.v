(** Proofs about PCR updates and the computed PCR (C20, C21). *)
From Coq Require Import List NArith ZArith Lia Bool Arith.
From Coq Require Import ZifyBool ZifyNat ZifyN.
From Verif Require Import Base BufferUtil_Model BufferUtil_Proofs Pcr_Model Pcr_Spec.
From Verif Require Import FlashStore_Layout_Proofs.
Import ListNotations.

Lemma le16_bytes : forall v, le16 v = le_bytes 2 v.
Proof. reflexivity. Qed.
Lemma le32_bytes : forall v, le32 v = le_bytes 4 v.
Proof.
  intros. unfold le32. cbn [le_bytes]. rewrite !N.div_div by discriminate. reflexivity.
Qed.
Lemma le64_bytes : forall v, le64 v = le_bytes 8 v.
Proof.
  intros v. unfold le64, le32. cbn [le_bytes app]. rewrite !N.div_div by discriminate. cbn [N.mul Pos.mul].
  assert (forall a, (0 < a)%N -> forall b, (0 < b)%N -> (v mod (a * (256 * b)) / a mod 256 = v / a mod 256)%N) as E.
  { intros a Ha b Hb. rewrite N.mod_mul_r by lia.
    rewrite N.mul_comm, N.div_add by lia. rewrite (N.div_small (v mod a)) by (apply N.mod_lt; lia).
    rewrite N.add_0_l. rewrite N.mod_mul_r by lia. rewrite N.mul_comm, N.mod_add by lia.
    apply N.mod_mod; lia. }
  f_equal.
  - change 4294967296%N with (256 * 16777216)%N at 1. rewrite N.mod_mul_r by lia.
    rewrite N.mul_comm, N.mod_add by lia. apply N.mod_mod; lia.
  - f_equal; [exact (E 256%N eq_refl 65536%N eq_refl)|].
    f_equal; [exact (E 65536%N eq_refl 256%N eq_refl)|].
    f_equal. exact (E 16777216%N eq_refl 1%N eq_refl).
Qed.
Lemma length_le_bytes : forall n v, length (le_bytes n v) = n.
Proof. induction n; cbn [le_bytes length]; intros; [reflexivity|now rewrite IHn]. Qed.

Lemma hash_len_le : forall a, hash_len a <= 64.
Proof. destruct a; cbn; lia. Qed.
Lemma algo_eqb_eq : forall a b, algo_eqb a b = true <-> a = b.
Proof. destruct a, b; cbn; split; intros; congruence. Qed.
Lemma length_zeros : forall n, length (zeros n) = n.
Proof. intros. apply repeat_length. Qed.

Lemma firstn_splice0 : forall (A : Type) (l d : list A), firstn (length d) (splice l 0 d) = d.
Proof. intros. rewrite splice_0. rewrite firstn_app_le by lia. apply firstn_all. Qed.

Lemma nth_error_nth' : forall (A : Type) (l : list A) i d, i < length l -> nth_error l i = Some (nth i l d).
Proof. induction l; destruct i; cbn [length nth nth_error]; intros; try lia; auto. apply IHl; lia. Qed.

Lemma upd_self : forall (A : Type) (l : list A) i x, nth_error l i = Some x -> upd l i x = l.
Proof. induction l; destruct i; cbn; intros; try congruence. f_equal; auto. Qed.

(* ------------------------------------------------------------------------------------------ *)
(** Measurements of a store. *)

Lemma measurement_some : forall s p i m, measurement s p i = Some m ->
  exists b, nth_error s p = Some b /\ nth_error (mlist b) i = Some m /\ i < length (mlist b) /\ get_m b i = m.
Proof.
  unfold measurement. intros. destruct (nth_error s p) as [b|] eqn:E; [|discriminate].
  exists b. split; auto. split; auto.
  assert (i < length (mlist b)) by (apply nth_error_Some; congruence). split; auto.
  unfold get_m. apply nth_error_nth; auto.
Qed.

Lemma measurement_upd_bank : forall s p b' q j, p < length s ->
  measurement (upd s p b') q j = if p =? q then nth_error (mlist b') j else measurement s q j.
Proof.
  intros. unfold measurement. destruct (Nat.eqb_spec p q).
  - subst. rewrite nth_error_upd_eq by auto. reflexivity.
  - rewrite nth_error_upd_neq by auto. reflexivity.
Qed.

Lemma algorithm_upd : forall s p b b' q, nth_error s p = Some b -> balgo b' = balgo b ->
  algorithm (upd s p b') q = algorithm s q.
Proof.
  intros. unfold algorithm. destruct (Nat.eq_dec p q).
  - subst. rewrite nth_error_upd_eq by (apply nth_error_Some; congruence). rewrite H. cbn. congruence.
  - rewrite nth_error_upd_neq by auto. reflexivity.
Qed.

Lemma put_only_changed : forall s p b i m', nth_error s p = Some b ->
  only_changed s (upd s p (put_m b i m')) p i.
Proof.
  intros. assert (p < length s) by (apply nth_error_Some; congruence).
  unfold only_changed. split; [apply length_upd|]. split; [|split].
  - intros. eapply algorithm_upd; eauto.
  - intros. destruct (Nat.eq_dec p q).
    + subst. rewrite nth_error_upd_eq by auto. rewrite H. reflexivity.
    + rewrite nth_error_upd_neq by auto. reflexivity.
  - intros. rewrite measurement_upd_bank by auto. destruct (Nat.eqb_spec p q); auto. subst.
    unfold measurement. rewrite H. cbn [mlist put_m]. apply nth_error_upd_neq. congruence.
Qed.

Lemma put_measurement : forall s p b i m', nth_error s p = Some b -> i < length (mlist b) ->
  measurement (upd s p (put_m b i m')) p i = Some m'.
Proof.
  intros. rewrite measurement_upd_bank by (apply nth_error_Some; congruence).
  rewrite Nat.eqb_refl. cbn [mlist put_m]. apply nth_error_upd_eq; auto.
Qed.

Section Engine.
  Variable H : algo -> list N -> list N.
  Hypothesis H_length : forall a msg, length (H a msg) = hash_len a.

  Definition updated (b : bank) (i : nat) (o : op) (m' : meas) : Prop :=
    let m := get_m b i in
    value m' = value m /\ data m' = data m /\ event_type m' = event_type m /\
    dmtf_type m' = dmtf_type m /\ not_tcb m' = not_tcb m /\
    digest_of (balgo b) m' = recorded H (balgo b) m o /\
    (length (digest m) = 64 -> length (digest m') = 64) /\
    version m' = recorded_version m o /\ f_event m' = recorded_event_flag m o /\
    f_version m' = recorded_version_flag m o /\ f_constant m' = is_constant_update o.

  Definition bank_update (b : bank) (i : nat) (o : op) (r : bank * res nat) : Prop :=
    (exists e, r = (b, Err e)) \/
    (i < length (mlist b) /\ f_constant (get_m b i) = false /\
     exists m', r = (put_m b i m', Ok 0) /\ updated b i o m').

  Lemma update_digest_common_spec : forall b i d fe fv fc v o,
    recorded H (balgo b) (get_m b i) o = d ->
    recorded_version (get_m b i) o = v -> recorded_event_flag (get_m b i) o = fe ->
    recorded_version_flag (get_m b i) o = fv -> is_constant_update o = fc ->
    bank_update b i o (update_digest_common b i d fe fv fc v).
  Proof.
    intros. unfold update_digest_common.
    destruct (Nat.eqb_spec (length d) (hash_len (balgo b))); cbn [negb]; [|left; eauto].
    destruct (Nat.leb_spec (length (mlist b)) i); [left; eauto|].
    destruct (f_constant (get_m b i)) eqn:F; [left; eauto|].
    right. split; auto. split; auto. eexists. split; [reflexivity|].
    unfold updated. cbn [set_digest value data event_type dmtf_type not_tcb digest version f_event f_version
      f_constant digest_of].
    subst. splits; auto.
    - unfold digest_of. cbn [digest set_digest]. rewrite <- e. rewrite firstn_splice0. reflexivity.
    - intros L. rewrite length_splice; auto. rewrite L. pose proof (hash_len_le (balgo b)). lia.
  Qed.

  Lemma update_buffer_common_spec : forall (hs : nat -> N) b i buf (fe fv fc : bool) v o,
    recorded H (balgo b) (get_m b i) o =
      H (balgo b) ((if fe then le_bytes 4 (event_type (get_m b i)) else []) ++ (if fv then [v] else []) ++
        match buf with Some l => l | None => [] end) ->
    recorded_version (get_m b i) o = (if fv then v else 0%N) -> recorded_event_flag (get_m b i) o = fe ->
    recorded_version_flag (get_m b i) o = fv -> is_constant_update o = fc ->
    bank_update b i o (update_buffer_common H hs b i buf fe fv fc v).
  Proof.
    intros. unfold update_buffer_common.
    destruct (negb fe && negb fv && _); [left; eauto|].
    destruct (negb (hs 0%nat =? 0)%N); [left; eauto|].
    apply update_digest_common_spec; auto.
    rewrite H0. rewrite le32_bytes. reflexivity.
  Qed.

  Lemma invalidate_spec : forall b i p, bank_update b i (Invalidate p i) (invalidate b i).
  Proof.
    intros. unfold invalidate.
    destruct (Nat.leb_spec (length (mlist b)) i); [left; eauto|].
    destruct (f_constant (get_m b i)) eqn:F; [left; eauto|].
    right. split; auto. split; auto. eexists. split; [reflexivity|].
    unfold updated. cbn [set_digest value data event_type dmtf_type not_tcb digest version f_event f_version
      f_constant recorded recorded_version recorded_event_flag recorded_version_flag is_constant_update].
    splits; auto.
    unfold digest_of. cbn [digest]. destruct (balgo b); reflexivity.
  Qed.

  Lemma update_step_bank : forall hs s o p i b, update_target o = Some (p, i) -> nth_error s p = Some b ->
    exists r, step H hs s o = (upd s p (fst r), snd r) /\ bank_update b i o r.
  Proof.
    intros hs s o p i b T N.
    destruct o; cbn [update_target] in T; try discriminate;
      injection T as -> ->; cbn [step]; unfold on_bank; rewrite N;
      (eexists; split; [match goal with |- (let '(_, _) := ?x in _) = _ => rewrite (surjective_pairing x) end;
                        reflexivity|]).
    - apply update_digest_common_spec; reflexivity.
    - apply update_buffer_common_spec; reflexivity.
    - apply update_buffer_common_spec; reflexivity.
    - apply update_digest_common_spec; reflexivity.
    - apply update_buffer_common_spec; reflexivity.
    - apply update_buffer_common_spec; reflexivity.
    - apply invalidate_spec.
  Qed.

  (** Everything an update or invalidation of (p, i) can do. *)
  Lemma update_step : forall hs s o p i, update_target o = Some (p, i) ->
    (exists e, step H hs s o = (s, Err e)) \/
    (exists b m', nth_error s p = Some b /\ i < length (mlist b) /\ f_constant (get_m b i) = false /\
       step H hs s o = (upd s p (put_m b i m'), Ok 0) /\ updated b i o m').
  Proof.
    intros hs s o p i T. destruct (nth_error s p) as [b|] eqn:N.
    - destruct (update_step_bank hs s o p i b T N) as (r & E & U). rewrite E.
      destruct U as [(e & ->)|(L & F & m' & -> & U)]; cbn [fst snd].
      + left. rewrite upd_self by auto. eauto.
      + right. exists b, m'. splits; auto.
    - left. destruct o; cbn [update_target] in T; try discriminate;
      injection T as -> ->; cbn [step]; unfold on_bank; rewrite N; eauto.
  Qed.

  (** The configuration calls: they change one measurement, but no digest, version or flag. *)
  Definition config_target (o : op) : option (nat * nat) :=
    match o with SetEventType p i _ | SetDmtfType p i _ _ | SetData p i _ => Some (p, i) | _ => None end.

  Definition same_digest (m m' : meas) : Prop :=
    digest m' = digest m /\ value m' = value m /\ version m' = version m /\ f_event m' = f_event m /\
    f_version m' = f_version m /\ f_constant m' = f_constant m.

  Lemma config_step : forall hs s o p i, config_target o = Some (p, i) ->
    (exists e, step H hs s o = (s, Err e)) \/
    (exists b m', nth_error s p = Some b /\ i < length (mlist b) /\
       step H hs s o = (upd s p (put_m b i m'), Ok 0) /\ same_digest (get_m b i) m').
  Proof.
    intros hs s o p i T.
    destruct o; cbn [config_target] in T; try discriminate; injection T as -> ->; cbn [step];
      unfold on_bank; destruct (nth_error s p) as [b|] eqn:N; try (left; eauto; fail);
      unfold set_event_type, set_dmtf_type, set_measurement_data;
      (destruct (Nat.leb_spec (length (mlist b)) i); [left; rewrite upd_self by auto; eauto|]);
      try (destruct (DMTF_UNUSED <=? t)%N; [left; rewrite upd_self by auto; eauto|]);
      right; exists b; eexists; (split; [auto|]); (split; [auto|]); (split; [reflexivity|]);
      unfold same_digest; cbn; auto 10.
  Qed.

  (* ---------------------------------------------------------------------------------------- *)
  (** The computed PCR. *)

  Definition chain_from (a : algo) (p : list N) (ds : list (list N)) : list N :=
    fold_left (fun pcr d => H a (pcr ++ d)) ds p.

  Lemma length_chain_from : forall a ds p, length p = hash_len a -> length (chain_from a p ds) = hash_len a.
  Proof. unfold chain_from. induction ds; cbn [fold_left]; intros; auto. Qed.

  Lemma same_but_value_set : forall m v, same_but_value m (set_value m v).
  Proof. intros. unfold same_but_value, set_value. cbn. auto 15. Qed.
  Lemma same_but_value_refl : forall m, same_but_value m m.
  Proof. intros. unfold same_but_value. auto 15. Qed.
  Lemma same_but_value_trans : forall a b c, same_but_value a b -> same_but_value b c -> same_but_value a c.
  Proof. unfold same_but_value. intros a b c (?&?&?&?&?&?&?&?&?) (?&?&?&?&?&?&?&?&?). splits; congruence. Qed.

  (** The loop: only values from index [k] on change, and on success they are the chain. *)
  Lemma compute_loop_spec : forall base hs n k b prev b' prev' r,
    compute_loop H hs base n k b prev = (b', prev', r) ->
    k + n <= length (mlist b) -> length prev = 64 ->
    length (mlist b') = length (mlist b) /\ balgo b' = balgo b /\ explicit b' = explicit b /\
    length prev' = 64 /\
    (forall i, i < k -> get_m b' i = get_m b i) /\
    (forall i, same_but_value (get_m b i) (get_m b' i)) /\
    (bank_ok b -> bank_ok b') /\
    match r with
    | None =>
      firstn (hash_len (balgo b)) prev' =
        chain_from (balgo b) (firstn (hash_len (balgo b)) prev)
          (map (digest_of (balgo b)) (firstn n (skipn k (mlist b)))) /\
      (forall i, k <= i < k + n -> firstn (hash_len (balgo b)) (value (get_m b' i)) =
        chain_from (balgo b) (firstn (hash_len (balgo b)) prev)
          (map (digest_of (balgo b)) (firstn (S (i - k)) (skipn k (mlist b)))))
    | Some e => e <> 0%N /\ exists j, j < n /\ hs (base + (k + j)) = e
    end.
  Proof.
    intros base hs. induction n as [|n IH]; intros k b prev b' prev' r C L P; cbn [compute_loop] in C.
    - injection C as <- <- <-. splits; auto using same_but_value_refl. intros. lia.
    - destruct (N.eqb_spec (hs (base + k)) 0%N) as [E|E]; cbn [negb] in C.
      2:{ injection C as <- <- <-. splits; auto using same_but_value_refl.
          exists 0. rewrite Nat.add_0_r. split; [lia|auto]. }
      set (hl := hash_len (balgo b)) in *.
      set (p1 := splice prev 0 (H (balgo b) (firstn hl prev ++ firstn hl (digest (get_m b k))))) in *.
      assert (hl <= 64) as HL by apply hash_len_le.
      assert (length p1 = 64) as LP.
      { unfold p1. rewrite length_splice; rewrite ?H_length; auto. fold hl. lia. }
      assert (firstn hl p1 = H (balgo b) (firstn hl prev ++ digest_of (balgo b) (get_m b k))) as FP.
      { pose proof (firstn_splice0 _ prev (H (balgo b) (firstn hl prev ++ firstn hl (digest (get_m b k))))) as F.
        rewrite H_length in F. exact F. }
      set (b1 := put_m b k (set_value (get_m b k) p1)) in *.
      assert (length (mlist b1) = length (mlist b)) as LB by apply length_upd.
      assert (forall i, i <> k -> get_m b1 i = get_m b i) as G1.
      { intros. unfold get_m, b1. cbn [mlist put_m]. apply nth_upd_neq; auto. }
      assert (get_m b1 k = set_value (get_m b k) p1) as G2.
      { unfold get_m at 1, b1. cbn [mlist put_m]. apply nth_upd_eq. lia. }
      specialize (IH (S k) b1 p1 b' prev' r C ltac:(lia) LP).
      destruct IH as (I1 & I2 & I3 & I4 & I5 & I6 & I7 & I8).
      change (balgo b1) with (balgo b) in *. change (explicit b1) with (explicit b) in *.
      assert (skipn (S k) (mlist b1) = skipn (S k) (mlist b)) as SK.
      { apply nth_ext_len with (d := meas0); [rewrite !skipn_length; lia|].
        intros i Hi. rewrite !nth_skipn. apply (G1 (S k + i)). lia. }
      assert (skipn k (mlist b) = get_m b k :: skipn (S k) (mlist b)) as SB.
      { assert (k < length (mlist b)) as Hk by lia. unfold get_m. clear - Hk.
        revert k Hk. induction (mlist b); destruct k; cbn [length skipn nth]; intros; try lia; auto.
        apply IHl. lia. }
      splits; try congruence.
      + intros. rewrite I5 by lia. apply G1. lia.
      + intros. destruct (Nat.eq_dec i k) as [->|D].
        * eapply same_but_value_trans; [|apply I6]. rewrite G2. apply same_but_value_set.
        * rewrite <- (G1 i D). apply I6.
      + intros B. apply I7. unfold bank_ok, b1. cbn [mlist put_m]. apply Forall_upd; auto.
        split; cbn [set_value digest value]; auto.
        eapply (Forall_forall meas_ok (mlist b)) in B; [apply B|]. apply nth_In. lia.
      + destruct r as [e|].
        * destruct I8 as (? & j & ? & ?). split; auto. exists (S j). split; [lia|].
          replace (base + (k + S j)) with (base + (S k + j)) by lia. auto.
        * destruct I8 as [I8 I9]. rewrite SK in I8. fold hl in I8, I9. rewrite FP in I8, I9.
          rewrite SB. cbn [firstn map]. split; [exact I8|].
          intros i Hi. destruct (Nat.eq_dec i k) as [->|D].
          -- rewrite I5 by lia. rewrite G2. cbn [set_value value]. rewrite Nat.sub_diag. cbn [firstn map].
             exact FP.
          -- rewrite I9 by lia. rewrite SK. replace (i - k) with (S (i - S k)) by lia. reflexivity.
  Qed.

  Definition bank_same (b b' : bank) : Prop :=
    length (mlist b') = length (mlist b) /\ balgo b' = balgo b /\ explicit b' = explicit b /\
    (forall i, same_but_value (get_m b i) (get_m b' i)) /\ (bank_ok b -> bank_ok b').

  Lemma bank_same_refl : forall b, bank_same b b.
  Proof. intros. unfold bank_same. splits; auto using same_but_value_refl. Qed.

  Lemma pcr_compute_spec : forall hs base b out b' out' r,
    pcr_compute H hs base b out = (b', out', r) ->
    bank_same b b' /\
    ((exists e, r = Err e /\ out' = out /\
       ((e = SmallOutputBuffer /\ exists o, out = Some o /\ length o < hash_len (balgo b)) \/
        (explicit b = false /\ exists k, k < length (mlist b) /\ e = HashError (hs (base + k)) /\
           hs (base + k) <> 0%N))) \/
     (r = Ok (hash_len (balgo b)) /\
      (forall o, out = Some o -> hash_len (balgo b) <= length o) /\
      out' = option_map (fun o => splice o 0
        (if explicit b then digest_of (balgo b) (get_m b 0)
         else extend_chain H (balgo b) (map (digest_of (balgo b)) (mlist b)))) out /\
      if explicit b then b' = b
      else forall i, i < length (mlist b) -> firstn (hash_len (balgo b)) (value (get_m b' i)) =
             extend_chain H (balgo b) (map (digest_of (balgo b)) (firstn (S i) (mlist b))))).
  Proof.
    intros hs base b out b' out' r C. unfold pcr_compute in C.
    assert (forall o : list N, (length o <? hash_len (balgo b)) = false -> hash_len (balgo b) <= length o) as LT.
    { intros. apply Nat.ltb_ge; auto. }
    destruct (match out with Some o => _ | None => _ end) eqn:S.
    { injection C as <- <- <-. split; [apply bank_same_refl|]. left. exists SmallOutputBuffer. splits; auto.
      left. split; auto. destruct out as [o|]; [|discriminate]. exists o. split; auto. now apply Nat.ltb_lt. }
    assert (forall o, out = Some o -> hash_len (balgo b) <= length o) as LO by (intros; subst; auto).
    destruct (explicit b) eqn:X.
    { injection C as <- <- <-. split; [apply bank_same_refl|]. right. splits; auto. }
    destruct (compute_loop _ _ _ _ _ _ _) as [[b1 prev] e] eqn:L.
    apply compute_loop_spec in L; [|lia|reflexivity].
    destruct L as (L1 & L2 & L3 & L4 & L5 & L6 & L7 & L8).
    assert (bank_same b b1) as BS by (unfold bank_same; splits; auto).
    destruct e as [e|].
    - injection C as <- <- <-. split; auto. left. exists (HashError e). splits; auto. right. split; auto.
      destruct L8 as (? & j & ? & ?). exists j. cbn [Nat.add] in *. splits; auto; congruence.
    - injection C as <- <- <-. split; auto. right. destruct L8 as [L8 L9].
      rewrite firstn_all in L8.
      assert (firstn (hash_len (balgo b)) (zeros MAX_DIGEST) = repeat 0%N (hash_len (balgo b))) as Z
        by (destruct (balgo b); reflexivity).
      rewrite Z in L8, L9.
      splits; auto.
      + rewrite L8. reflexivity.
      + intros i Hi. rewrite L9 by lia. rewrite Nat.sub_0_r. reflexivity.
  Qed.
End Engine.
